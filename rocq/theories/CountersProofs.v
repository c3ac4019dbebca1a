(** The counters of both solvers. *)
From Verif Require Import CountersSpec ParFacts.
From Coq Require Import Lia.
Open Scope nat_scope.

Lemma nth_put {A} i (x : A) : forall l t, nth_error l i = Some t -> nth_error (put i x l) i = Some x.
Proof. induction i as [|i IH]; intros [|h l] t H; cbn in *; try discriminate; [reflexivity|]. exact (IH _ _ H). Qed.
Lemma sum_put {A} (f : A -> nat) i x : forall l t, nth_error l i = Some t -> list_sum (map f (put i x l)) + f t = list_sum (map f l) + f x.
Proof.
  induction i as [|i IH]; intros [|h l] t H; cbn in *; try discriminate; [injection H as ->; unfold list_sum; lia|].
  specialize (IH _ _ H). unfold list_sum in *. lia.
Qed.

Section Par.
Variable S : Type.
Variable eqb : S -> S -> bool.
Variable cfg : config S.

(** What a thread has counted and not reported yet. *)
Definition unreported (t : thread S) : nat :=
  match t_pc t with PRestricted _ => g_explored (t_dd t) | PRelax _ k | PRelaxed _ k | PNotify k => k | PIdle | PWait | PStart _ | PDone => 0 end.
Definition unrep (l : list (thread S)) : nat := list_sum (map unreported l).
Lemma unrep_wake l : unrep (map wake l) = unrep l.
Proof.
  unfold unrep. rewrite map_map. f_equal. apply map_ext. intros [p d]. destruct p; reflexivity.
Qed.
Lemma unrep_put i x l t : nth_error l i = Some t -> unrep (put i x l) + unreported t = unrep l + unreported x.
Proof. apply sum_put. Qed.
Lemma max_upd c d c' : maybe_update_best cfg c d = Some c' -> c_explored c' = c_explored c /\ c_explored_dd c' = c_explored_dd c.
Proof.
  unfold maybe_update_best. destruct (best_value d) as [bv|]; cbn [obind]; [|discriminate]. destruct (_ <? _)%Z; [|intros H; injection H as <-; auto].
  destruct (best_solution d); cbn [obind]; [|discriminate]. intros H; injection H as <-. auto.
Qed.
Lemma counted_step_ok orc intr i st st' t t' : thread_step eqb cfg orc intr i st = Next st' ->
  nth_error (s_threads st) i = Some t -> nth_error (s_threads st') i = Some t' ->
  c_explored (s_crit st') = c_explored (s_crit st) + took S (t_pc t) (t_pc t') /\
  c_explored_dd (s_crit st') + unrep (s_threads st') = c_explored_dd (s_crit st) + unrep (s_threads st) + expanded S (t_pc t) (t_pc t') (t_dd t').
Proof.
  intros H Ht Ht'. unfold thread_step in H. rewrite Ht in H. destruct t as [p d]. cbn [t_pc t_dd] in *.
  assert (L : forall (o : option (critical S cfg * thread S)) c1 t1, lift cfg o i st = Next st' -> o = Some (c1, t1) -> s_crit st' = c1 /\ t' = t1 /\
    unrep (s_threads st') + unreported (mk_th p d) = unrep (s_threads st) + unreported t1).
  { intros o c1 t1 HL ->. cbn in HL. injection HL as <-. cbn [s_crit s_threads] in *. rewrite (nth_put _ _ _ _ Ht) in Ht'. injection Ht' as <-.
    split; [reflexivity|]. split; [reflexivity|]. exact (unrep_put _ _ _ _ Ht). }
  assert (LN : forall (o : option (critical S cfg * thread S)), lift cfg o i st = Next st' -> exists x, o = Some x).
  { intros o HL. destruct o; [eauto|discriminate]. }
  destruct p; try discriminate.
  - destruct (LN _ H) as [[c1 t1] E]. destruct (L _ _ _ H E) as (-> & -> & Hu). clear L LN H.
    destruct (get_workload cfg (s_crit st) i intr) as [[c2 w]|] eqn:G; cbn [obind] in E; [|discriminate]. injection E as <- <-. cbn [t_pc t_dd].
    cbn [unreported t_pc] in Hu. unfold get_workload in G.
    destruct (_ && _); [injection G as <- <-; cbn in *; lia|]. destruct (c_interrupted _); [injection G as <- <-; cbn in *; lia|].
    destruct intr.
    + destruct (0 <? c_ongoing (s_crit st)); cbn [obind] in G; [injection G as <- <-; cbn in *; lia|].
      destruct (fr_pop _ _) as [[[nn|] f]|]; cbn [obind] in G; try discriminate. injection G as <- <-. cbn in *. lia.
    + destruct (fr_empty _ _); [injection G as <- <-; cbn in *; lia|].
      destruct (fr_pop _ _) as [[[nn|] f]|]; cbn [obind] in G; try discriminate. destruct (_ <=? _)%Z; [injection G as <- <-; cbn in *; lia|].
      destruct (upd _ _ _); cbn [obind] in G; [|discriminate]. injection G as <- <-. cbn in *. lia.
  - destruct (LN _ H) as [[c1 t1] E]. destruct (L _ _ _ H E) as (-> & -> & Hu). clear L LN H. cbn [unreported t_pc] in Hu.
    destruct (_ <=? _)%Z; [injection E as <- <-; cbn in *; lia|]. destruct (MddAll.compile _ _ _ _ _) as [d'|]; cbn [obind] in E; [|discriminate].
    injection E as <- <-. cbn in *. lia.
  - destruct (LN _ H) as [[c1 t1] E]. destruct (L _ _ _ H E) as (-> & -> & Hu). clear L LN H.
    destruct (maybe_update_best _ _ _) as [c2|] eqn:G; cbn [obind] in E; [|discriminate]. apply max_upd in G. injection E as <- <-. destruct G as [-> ->].
    destruct (g_exact d); cbn in *; lia.
  - destruct (LN _ H) as [[c1 t1] E]. destruct (L _ _ _ H E) as (-> & -> & Hu). clear L LN H.
    destruct (MddAll.compile _ _ _ _ _) as [d'|]; cbn [obind] in E; [|discriminate]. injection E as <- <-. cbn in *. lia.
  - destruct (LN _ H) as [[c1 t1] E]. destruct (L _ _ _ H E) as (-> & -> & Hu). clear L LN H. destruct (g_exact d).
    + destruct (maybe_update_best _ _ _) as [c2|] eqn:G; cbn [obind] in E; [|discriminate]. apply max_upd in G. injection E as <- <-. destruct G as [-> ->]. cbn in *. lia.
    + unfold enqueue_cutset in E. destruct (drain_cutset d) as [[l d2]|]; cbn [obind] in E; [|discriminate].
      destruct (ofold _ _ _); cbn [obind] in E; [|discriminate]. injection E as <- <-. cbn in *. lia.
  - clear L LN. unfold finish_node in H. destruct (c_ongoing (s_crit st)); [discriminate|]. destruct (upd _ _ _); cbn [obind] in H; [|discriminate].
    injection H as <-. cbn [s_threads s_crit c_explored c_explored_dd] in *. rewrite unrep_wake.
    rewrite nth_error_map, (nth_put _ _ _ _ Ht) in Ht'. cbn in Ht'. injection Ht' as <-. cbn [t_pc took expanded].
    assert (Hu := unrep_put i (mk_th PIdle d) _ _ Ht). cbn in Hu. lia.
Qed.
Lemma step_thread orc intr i st st' : thread_step eqb cfg orc intr i st = Next st' -> exists t t', nth_error (s_threads st) i = Some t /\ nth_error (s_threads st') i = Some t'.
Proof.
  intros H. unfold thread_step in H. destruct (nth_error (s_threads st) i) as [t|] eqn:Ht; [|discriminate]. exists t.
  assert (L : forall o : option (critical S cfg * thread S), lift cfg o i st = Next st' -> exists t', nth_error (s_threads st') i = Some t').
  { intros [[c1 t1]|] HL; [|discriminate]. cbn in HL. injection HL as <-. cbn. exists t1. exact (nth_put _ _ _ _ Ht). }
  destruct (t_pc t) eqn:Ep; try discriminate; try (destruct (L _ H) as [t' Ht']; exists t'; split; [reflexivity|exact Ht']).
  destruct (finish_node _ _ _ _); [|discriminate]. injection H as <-. cbn. eexists. split; [reflexivity|]. rewrite nth_error_map, (nth_put _ _ _ _ Ht). reflexivity.
Qed.

Theorem par_counted n m a b st : counted S eqb cfg n m a b st ->
  c_explored (s_crit st) = a /\ c_explored_dd (s_crit st) + unrep (s_threads st) = b.
Proof.
  induction 1 as [st H|a b st orc intr i st' t t' _ (IH1 & IH2) _ H Ht Ht'|a b st st' _ (IH1 & IH2) (i & d & Hn & ->)].
  - unfold initial in H. destruct (fr_push _ _ _); cbn [obind] in H; [|discriminate]. injection H as <-. cbn [s_crit s_threads c_explored c_explored_dd].
    split; [reflexivity|]. unfold unrep. induction m as [|m IH]; [reflexivity|exact IH].
  - destruct (counted_step_ok _ _ _ _ _ _ _ H Ht Ht'). lia.
  - cbn [s_crit s_threads]. assert (Hu := unrep_put i (mk_th PIdle d) _ _ Hn). cbn in Hu. lia.
Qed.
Lemma unrep_done (l : list (thread S)) : (forall t, In t l -> t_pc t = PDone) -> unrep l = 0.
Proof.
  unfold unrep, list_sum. induction l as [|t l IH]; intros H; [reflexivity|]. cbn. unfold unreported at 1. rewrite (H t) by (left; reflexivity). apply IH. intros t' Ht'. apply H. right. exact Ht'.
Qed.
Theorem par_counters n m a b st : counted S eqb cfg n m a b st ->
  c_explored (s_crit st) = a /\ c_explored_dd (s_crit st) <= b /\ (all_done cfg st -> c_explored_dd (s_crit st) = b).
Proof. intros H. destruct (par_counted _ _ _ _ _ H) as [H1 H2]. split; [exact H1|]. split; [lia|]. intros Hd. rewrite (unrep_done _ Hd) in H2. lia. Qed.
Theorem par_counted_all n m st : reachable S eqb cfg n m st -> exists a b, counted S eqb cfg n m a b st.
Proof.
  intros (st0 & H0 & H). revert H0. induction H as [st|st st' st'' _ IH Hs]; intros H0; [exists 0, 0; apply counted_init; exact H0|].
  destruct (IH H0) as (a & b & HC). destruct Hs as [(orc & intr & i & Hl & Hs)|Hs].
  - destruct (step_thread _ _ _ _ _ Hs) as (t & t' & Ht & Ht'). eexists _, _. eapply counted_step; eassumption.
  - exists a, b. eapply counted_spurious; eassumption.
Qed.
End Par.

Section Bar.
Variable S : Type.
Variable eqb : S -> S -> bool.
Variable cfg : config S.

Definition bunreported (t : bthread S) : nat :=
  match u_pc t with BRelax _ k | BRelaxing _ k _ | BNotify _ k => k | BIdle | BWait | BClean | BTry _ | BInsert _ | BStart _ | BRestrict _ _ | BDone => 0 end.
Definition bunrep (l : list (bthread S)) : nat := list_sum (map bunreported l).
Lemma bunrep_wake l : bunrep (map bwake l) = bunrep l.
Proof. unfold bunrep. rewrite map_map. f_equal. apply map_ext. intros [p d]. destruct p; reflexivity. Qed.
Lemma bunrep_put i x l t : nth_error l i = Some t -> bunrep (put i x l) + bunreported t = bunrep l + bunreported x.
Proof. apply sum_put. Qed.
Notation ce k := (c_explored (k_c k)).
Notation cd k := (c_explored_dd (k_c k)).
Lemma decide_count k intr k' p : decide cfg k intr = Some (k', p) -> ce k' = ce k /\ cd k' = cd k /\ match p with BDone | BWait | BTry _ => True | _ => False end.
Proof.
  unfold decide. intros H. destruct (_ && _); [injection H as <- <-; auto|]. destruct (c_interrupted _); [injection H as <- <-; auto|].
  destruct intr.
  - destruct (0 <? _); cbn [obind] in H; [injection H as <- <-; auto|]. destruct (fr_pop _ _) as [[[nn|] f]|]; cbn [obind] in H; try discriminate. injection H as <- <-. auto.
  - destruct (fr_empty _ _); [injection H as <- <-; auto|]. destruct (fr_pop _ _) as [[[nn|] f]|]; cbn [obind] in H; try discriminate. injection H as <- <-. auto.
Qed.
Lemma try_count k T n k' p : try_node eqb cfg k T n = Some (k', p) -> ce k' = ce k /\ cd k' = cd k /\ match p with BIdle | BInsert _ | BTry _ => True | _ => False end.
Proof.
  unfold try_node. intros H. destruct (_ <=? _)%Z; [injection H as <- <-; auto|]. destruct (nth_error T _) as [l|]; cbn [obind] in H; [|discriminate].
  destruct (match tget _ _ _ with Some _ => _ | None => _ end); [injection H as <- <-; auto|]. destruct (decr _ _) as [o|]; cbn [obind] in H; [|discriminate].
  destruct (fr_empty _ _); [injection H as <- <-; auto|]. destruct (fr_pop _ _) as [[[nn|] f]|]; cbn [obind] in H; try discriminate. injection H as <- <-. auto.
Qed.
Lemma take_count k T i n k' T' : take_node eqb cfg k T i n = Some (k', T') -> ce k' = Datatypes.S (ce k) /\ cd k' = cd k.
Proof.
  unfold take_node. intros H. destruct (nth_error T _) as [l|]; cbn [obind] in H; [|discriminate]. destruct (upd T _ _); cbn [obind] in H; [|discriminate].
  destruct (upd (c_ubs _) _ _); cbn [obind] in H; [|discriminate]. destruct (decr _ _); cbn [obind] in H; [|discriminate]. destruct (incr _ _); cbn [obind] in H; [|discriminate].
  injection H as <- <-. auto.
Qed.
Lemma clean_count k T k' T' : clean_turn cfg k T = Some (Some (k', T')) -> k_c k' = k_c k.
Proof.
  unfold clean_turn. intros H. destruct (_ <? _); [|discriminate]. destruct (nth_error (k_open k) _); cbn [obind] in H; [|discriminate].
  destruct (nth_error (k_ongoing k) _); cbn [obind] in H; [|discriminate]. destruct (_ =? _); [|discriminate]. destruct (upd _ _ _); cbn [obind] in H; [|discriminate].
  injection H as <- <-. reflexivity.
Qed.
Lemma bcounted_step_ok orc intr i st st' t t' : bthread_step eqb cfg orc intr i st = BNext st' ->
  nth_error (q_threads st) i = Some t -> nth_error (q_threads st') i = Some t' ->
  ce (q_crit st') = ce (q_crit st) + btook S (u_pc t) (u_pc t') /\
  cd (q_crit st') + bunrep (q_threads st') = cd (q_crit st) + bunrep (q_threads st) + bexpanded S (u_pc t) (u_pc t').
Proof.
  intros H Ht Ht'. unfold bthread_step in H. rewrite Ht in H. destruct t as [p d]. cbn [u_pc u_dd] in *.
  assert (G : forall k T t1, goto cfg st i k T t1 = BNext st' -> q_crit st' = k /\ t' = t1 /\ bunrep (q_threads st') + bunreported (mk_bth p d) = bunrep (q_threads st) + bunreported t1).
  { intros k T t1 HG. unfold goto in HG. injection HG as <-. cbn [q_crit q_threads] in *. rewrite (nth_put _ _ _ _ Ht) in Ht'. injection Ht' as <-.
    split; [reflexivity|]. split; [reflexivity|]. exact (bunrep_put _ _ _ _ Ht). }
  destruct p; try discriminate.
  - destruct (locked cfg st); [discriminate|]. destruct (G _ _ _ H) as (-> & -> & Hu). cbn in *. lia.
  - destruct (clean_turn _ _ _) as [[[k' T']|]|] eqn:E; [| |discriminate].
    + destruct (G _ _ _ H) as (-> & -> & Hu). rewrite (clean_count _ _ _ _ E). cbn in *. lia.
    + destruct (decide _ _ _) as [[k' p]|] eqn:E'; [|discriminate]. destruct (G _ _ _ H) as (-> & -> & Hu). destruct (decide_count _ _ _ _ E') as (-> & -> & Hp).
      cbn in Hu. cbn [u_pc]. destruct p; try destruct Hp; cbn in *; lia.
  - destruct (try_node _ _ _ _ _) as [[k' p]|] eqn:E'; [|discriminate]. destruct (G _ _ _ H) as (-> & -> & Hu). destruct (try_count _ _ _ _ _ E') as (-> & -> & Hp).
    cbn in Hu. cbn [u_pc]. destruct p; try destruct Hp; cbn in *; lia.
  - destruct (take_node _ _ _ _ _ _) as [[k' T']|] eqn:E'; [|discriminate]. destruct (G _ _ _ H) as (-> & -> & Hu). destruct (take_count _ _ _ _ _ _ E') as (-> & ->). cbn in *. lia.
  - destruct (locked cfg st); [discriminate|]. destruct (G _ _ _ H) as (-> & -> & Hu). destruct (_ <=? _)%Z; cbn in *; lia.
  - destruct p as [d'| | | | ].
    1: { destruct (locked cfg st); [discriminate|]. destruct (maybe_update_best _ _ _) as [c2|] eqn:E; cbn [obind] in H; [|discriminate]. destruct (G _ _ _ H) as (-> & -> & Hu).
         apply max_upd in E. destruct E as [E1 E2]. cbn [k_c with_c]. rewrite E1, E2. destruct (g_exact d'); cbn in *; lia. }
    all: unfold compile_step in H; destruct (access _ _ _) as [[p' T']|]; [|discriminate]; destruct (G _ _ _ H) as (-> & -> & Hu); cbn in *; lia.
  - destruct (locked cfg st); [discriminate|]. destruct (G _ _ _ H) as (-> & -> & Hu). cbn in *. lia.
  - destruct p as [d'| | | | ].
    1: { destruct (locked cfg st); [discriminate|]. destruct (g_exact d').
         - destruct (maybe_update_best _ _ _) as [c2|] eqn:E; cbn [obind] in H; [|discriminate]. destruct (G _ _ _ H) as (-> & -> & Hu).
           apply max_upd in E. destruct E as [E1 E2]. cbn [k_c with_c]. rewrite E1, E2. cbn in *. lia.
         - unfold benqueue_cutset in H. destruct (drain_cutset d') as [[l d2]|]; cbn [obind] in H; [|discriminate].
           destruct (ofold _ _ _) as [[f o]|]; cbn [obind] in H; [|discriminate]. destruct (G _ _ _ H) as (-> & -> & Hu). cbn in *. lia. }
    all: unfold compile_step in H; destruct (access _ _ _) as [[p' T']|]; [|discriminate]; destruct (G _ _ _ H) as (-> & -> & Hu); cbn in *; lia.
  - clear G. destruct (locked cfg st); [discriminate|]. unfold bfinish_node, finish_node in H. destruct (c_ongoing _); cbn [obind] in H; [discriminate|].
    destruct (upd _ _ _); cbn [obind] in H; [|discriminate]. destruct (decr _ _); cbn [obind] in H; [|discriminate].
    injection H as <-. cbn [q_threads q_crit k_c c_explored c_explored_dd] in *. rewrite bunrep_wake.
    rewrite nth_error_map, (nth_put _ _ _ _ Ht) in Ht'. cbn in Ht'. injection Ht' as <-. cbn [u_pc btook bexpanded].
    assert (Hu := bunrep_put i (mk_bth BIdle d) _ _ Ht). cbn in Hu. lia.
Qed.
Lemma bstep_thread orc intr i st st' : bthread_step eqb cfg orc intr i st = BNext st' -> exists t t', nth_error (q_threads st) i = Some t /\ nth_error (q_threads st') i = Some t'.
Proof.
  intros H. unfold bthread_step in H. destruct (nth_error (q_threads st) i) as [t|] eqn:Ht; [|discriminate]. exists t.
  assert (G : forall k T t1, goto cfg st i k T t1 = BNext st' -> exists t', Some t = Some t /\ nth_error (q_threads st') i = Some t').
  { intros k T t1 HG. unfold goto in HG. injection HG as <-. cbn. exists t1. split; [reflexivity|]. exact (nth_put _ _ _ _ Ht). }
  destruct (u_pc t) as [| | |n|n|n|n p|n k|n k p|dp k|] eqn:Ep; try discriminate.
  - destruct (locked cfg st); [discriminate|]. eauto.
  - destruct (clean_turn _ _ _) as [[[k' T']|]|]; [eauto| |discriminate]. destruct (decide _ _ _) as [[k' p]|]; [eauto|discriminate].
  - destruct (try_node _ _ _ _ _) as [[k' p]|]; [eauto|discriminate].
  - destruct (take_node _ _ _ _ _ _) as [[k' T']|]; [eauto|discriminate].
  - destruct (locked cfg st); [discriminate|]. eauto.
  - destruct p as [d'| | | | ]; [destruct (locked cfg st); [discriminate|]; destruct (maybe_update_best _ _ _); cbn [obind] in H; [eauto|discriminate]|..];
      unfold compile_step in H; destruct (access _ _ _) as [[p' T']|]; eauto; discriminate.
  - destruct (locked cfg st); [discriminate|]. eauto.
  - destruct p as [d'| | | | ]; [destruct (locked cfg st); [discriminate|]; destruct (g_exact d'); [destruct (maybe_update_best _ _ _)|destruct (benqueue_cutset _ _ _ _) as [[? ?]|]]; cbn [obind] in H; try discriminate; eauto|..];
      unfold compile_step in H; destruct (access _ _ _) as [[p' T']|]; eauto; discriminate.
  - destruct (locked cfg st); [discriminate|]. destruct (bfinish_node _ _ _ _ _); [|discriminate]. injection H as <-. cbn. eexists. split; [reflexivity|].
    rewrite nth_error_map, (nth_put _ _ _ _ Ht). reflexivity.
Qed.
Theorem bar_counted n m a b st : bcounted S eqb cfg n m a b st -> ce (q_crit st) = a /\ cd (q_crit st) + bunrep (q_threads st) = b.
Proof.
  induction 1 as [st H|a b st orc intr i st' t t' _ (IH1 & IH2) _ H Ht Ht'|a b st st' _ (IH1 & IH2) (i & d & Hn & ->)].
  - unfold binitial in H. destruct (fr_push _ _ _); cbn [obind] in H; [|discriminate]. destruct (upd _ _ _); cbn [obind] in H; [|discriminate]. injection H as <-.
    cbn [q_crit q_threads k_c c_explored c_explored_dd]. split; [reflexivity|]. unfold bunrep. induction m as [|m IH]; [reflexivity|exact IH].
  - destruct (bcounted_step_ok _ _ _ _ _ _ _ H Ht Ht'). lia.
  - cbn [q_crit q_threads]. assert (Hu := bunrep_put i (mk_bth BIdle d) _ _ Hn). cbn in Hu. lia.
Qed.
Lemma bunrep_done (l : list (bthread S)) : (forall t, In t l -> u_pc t = BDone) -> bunrep l = 0.
Proof.
  unfold bunrep, list_sum. induction l as [|t l IH]; intros H; [reflexivity|]. cbn. unfold bunreported at 1. rewrite (H t) by (left; reflexivity). apply IH. intros t' Ht'. apply H. right. exact Ht'.
Qed.
Theorem bar_counters n m a b st : bcounted S eqb cfg n m a b st ->
  ce (q_crit st) = a /\ cd (q_crit st) <= b /\ (ball_done cfg st -> cd (q_crit st) = b).
Proof. intros H. destruct (bar_counted _ _ _ _ _ H) as [H1 H2]. split; [exact H1|]. split; [lia|]. intros Hd. rewrite (bunrep_done _ Hd) in H2. lia. Qed.
Theorem bar_counted_all n m st : breachable S eqb cfg n m st -> exists a b, bcounted S eqb cfg n m a b st.
Proof.
  intros (st0 & H0 & H). revert H0. induction H as [st|st st' st'' _ IH Hs]; intros H0; [exists 0, 0; apply bcounted_init; exact H0|].
  destruct (IH H0) as (a & b & HC). destruct Hs as [(orc & intr & i & Hl & Hs)|Hs].
  - destruct (bstep_thread _ _ _ _ _ Hs) as (t & t' & Ht & Ht'). eexists _, _. eapply bcounted_step; eassumption.
  - exists a, b. eapply bcounted_spurious; eassumption.
Qed.
End Bar.
