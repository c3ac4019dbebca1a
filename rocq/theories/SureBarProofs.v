(** When the first subproblem is fatal: with several threads, [maximize] of the solver with thresholds never ends. *)
From Verif Require Import ParSpec BarSpec FringeSpec ParFacts SortBy BarProofs BarWp CrashSpec CrashProofs CrashBarProofs SureSpec SureProofs.
Open Scope Z_scope.

Section Proofs.
Variable S : Type.
Variable eqb : S -> S -> bool.
Variable cfg : config S.
Variable fatal : subproblem S -> Prop.
Variable merging : Prop.
Notation fr := (cf_fr cfg).
Notation N := (pb_nb_vars (cf_pb cfg)).
Variable inv : fr_t fr -> Prop.
Variable content : fr_t fr -> list (subproblem S).
Hypothesis F : frontier_ok merging fr inv content.
Variables n m : nat.
Hypothesis Hm : (2 <= m <= n)%nat.
Hypothesis Hroot : fatal (root_node cfg).
Notation bcstate := (bcstate S cfg).
Notation bthread := (bthread S).
Notation root := (root_node cfg).

Lemma bf_bc x y : bfstep S eqb cfg fatal x y -> bcstep S eqb cfg false x y.
Proof. intros [orc i st st' dead H1 H2 H3 H4|i t k T t' st dead H1 H2 H3]; [eapply bcstep_moves|eapply bcstep_dies]; eauto; discriminate. Qed.
Lemma bfreaches_bcreaches x : bfreaches S eqb cfg fatal n m x -> bcreaches S eqb cfg false n m x.
Proof.
  intros (st & H0 & Hr). exists st. split; [exact H0|]. clear H0. induction Hr as [x|x y z _ IH [Hs|Hs]]; [apply bcruns_refl| |]; eapply bcruns_step; eauto. left. apply bf_bc, Hs.
Qed.

Definition pauses (t : bthread) : Prop := u_pc t = BWait \/ u_pc t = BIdle \/ u_pc t = BClean.
Record BCommon (x : bcstate) : Prop := {
  r_inv : inv (c_fringe (k_c (q_crit (z_st x))));
  r_go : c_interrupted (k_c (q_crit (z_st x))) = false;
  r_sized : sized S cfg (z_st x) }.
(** What the counters and thresholds are until the first subproblem is taken. *)
Record BFirst (x : bcstate) : Prop := {
  w_dead : z_dead x = []; w_ongoing : c_ongoing (k_c (q_crit (z_st x))) = 0%nat; w_lb : c_lb (k_c (q_crit (z_st x))) = IMIN;
  w_ubs : length (c_ubs (k_c (q_crit (z_st x)))) = n; w_open : nth_error (k_open (q_crit (z_st x))) 0 = Some 1%nat;
  w_some : exists g, nth_error (k_ongoing (q_crit (z_st x))) 0 = Some g; w_low : k_lowest (q_crit (z_st x)) = 0%nat;
  w_table : nth_error (q_table (z_st x)) 0 = Some [] }.
Inductive BStage (x : bcstate) : Prop :=
| BFresh : BCommon x -> BFirst x -> (forall i t, nth_error (q_threads (z_st x)) i = Some t -> u_pc t = BIdle \/ u_pc t = BClean) ->
    content (c_fringe (k_c (q_crit (z_st x)))) = [root] -> BStage x
| BTrying a ta : BCommon x -> BFirst x -> nth_error (q_threads (z_st x)) a = Some ta -> u_pc ta = BTry root \/ u_pc ta = BInsert root ->
    (forall i t, nth_error (q_threads (z_st x)) i = Some t -> i <> a -> u_pc t = BIdle) -> content (c_fringe (k_c (q_crit (z_st x)))) = [] -> BStage x
| BTaken a ta : BCommon x -> nth_error (q_threads (z_st x)) a = Some ta ->
    (u_pc ta = BStart root /\ z_dead x = [] /\ c_lb (k_c (q_crit (z_st x))) = IMIN) \/ ((exists p, u_pc ta = BRestrict root p) /\ (z_dead x = [] \/ z_dead x = [a])) ->
    (forall i t, nth_error (q_threads (z_st x)) i = Some t -> i <> a -> pauses t) -> content (c_fringe (k_c (q_crit (z_st x)))) = [] ->
    c_ongoing (k_c (q_crit (z_st x))) = 1%nat -> BStage x.

Lemma bstart_Stage st : binitial cfg n m = Some st -> BStage (mk_bcs st []).
Proof.
  unfold binitial. destruct (fo_new _ _ _ _ F) as (h1 & h2). destruct (fo_push _ _ _ _ F (fr_new fr) root h1) as (f & E & h3 & h4).
  rewrite E. cbn. intros H. injection H as <-. apply BFresh; cbn.
  - constructor; cbn; auto. unfold sized. cbn. rewrite ?repeat_length. cbn. lia.
  - constructor; cbn; auto; [apply repeat_length|]. exists 0%nat. reflexivity.
  - intros i t Ht. apply nth_error_In, repeat_spec in Ht. subst. left. reflexivity.
  - rewrite h2 in h4. destruct h4 as [h4|(_ & old & l & _ & h4 & _)]; [|apply Permutation_nil in h4; discriminate].
    apply Permutation_sym, Permutation_length_1_inv in h4. exact h4.
Qed.

Lemma two_holders (l : list bthread) : (tally (@holds S) l <= 1)%nat -> forall i j t u, nth_error l i = Some t -> nth_error l j = Some u -> holds t = true -> holds u = true -> i = j.
Proof.
  induction l as [|h l IH]; intros Hl [|i] [|j] t u Hi Hj Ht Hu; try discriminate; rewrite tally_cons in Hl; auto.
  - cbn in Hi. injection Hi as ->. rewrite Ht in Hl. cbn in Hj. pose proof (tally_at _ _ _ _ Hj Hu). lia.
  - cbn in Hj. injection Hj as ->. rewrite Hu in Hl. cbn in Hi. pose proof (tally_at _ _ _ _ Hi Ht). lia.
  - f_equal. apply (IH ltac:(lia) i j t u); auto.
Qed.
Lemma clean_first x : BFirst x -> clean_turn cfg (q_crit (z_st x)) (q_table (z_st x)) = Some None.
Proof.
  intros [_ _ _ _ Ho (g & Hg) Hl _]. unfold clean_turn. rewrite Hl. destruct (0 <? N)%nat; [|reflexivity]. rewrite Ho. cbn [obind]. rewrite Hg. reflexivity.
Qed.
Lemma decide_first x : BCommon x -> BFirst x -> content (c_fringe (k_c (q_crit (z_st x)))) = [root] ->
  exists f, decide cfg (q_crit (z_st x)) false = Some (with_c (q_crit (z_st x)) (set_fringe cfg (k_c (q_crit (z_st x))) f), BTry root) /\ inv f /\ content f = [].
Proof.
  intros [Hi Hn _] [_ Ho _ _ _ _ _ _] Hc. unfold decide. set (c := k_c (q_crit (z_st x))) in *. assert (E : fr_empty fr (c_fringe c) = false).
  { destruct (fr_empty fr (c_fringe c)) eqn:E; [|reflexivity]. apply (fo_empty _ _ _ _ F _ Hi) in E. congruence. }
  rewrite E, andb_false_r, Hn. destruct (fo_pop _ _ _ _ F _ Hi) as (p & f & Ep & h1 & h2 & _); [rewrite Hc; discriminate|]. rewrite Ep.
  rewrite Hc in h2. apply Permutation_length_1_inv in h2. injection h2 as -> h2. exists f. auto.
Qed.
Lemma try_first x : BFirst x -> try_node eqb cfg (q_crit (z_st x)) (q_table (z_st x)) root = Some (q_crit (z_st x), BInsert root).
Proof. intros [_ _ Hl _ _ _ _ Ht]. unfold try_node. rewrite Hl. replace (sp_ub root <=? IMIN) with false by reflexivity. cbn [sp_path root_node length]. rewrite Ht. reflexivity. Qed.
Lemma take_first x i : BFirst x -> (i < n)%nat -> exists k T, take_node eqb cfg (q_crit (z_st x)) (q_table (z_st x)) i root = Some (k, T) /\
  c_fringe (k_c k) = c_fringe (k_c (q_crit (z_st x))) /\ c_ongoing (k_c k) = 1%nat /\ c_lb (k_c k) = IMIN /\ c_interrupted (k_c k) = c_interrupted (k_c (q_crit (z_st x))) /\
  length (k_open k) = length (k_open (q_crit (z_st x))) /\ length (k_ongoing k) = length (k_ongoing (q_crit (z_st x))) /\ length T = length (q_table (z_st x)).
Proof.
  intros [_ Hc Hl Hu Ho (g & Hg) _ Ht] Hi. unfold take_node. cbn [sp_path root_node length]. rewrite Ht. cbn [obind].
  destruct (upd_ex (q_table (z_st x)) 0 (tput eqb [] (sp_state root) (mk_info (sp_value root) true))) as (T' & ET); [apply nth_error_Some; congruence|].
  change (sp_state (root_node cfg)) with (pb_init (cf_pb cfg)) in ET. cbn [root_node sp_state sp_value sp_ub] in *. rewrite ET. cbn [obind].
  destruct (upd_ex (c_ubs (k_c (q_crit (z_st x)))) i IMAX) as (ubs & Eu); [lia|]. rewrite Eu. cbn [obind].
  unfold decr, incr. rewrite Ho. cbn [obind]. destruct (upd_ex (k_open (q_crit (z_st x))) 0 0%nat) as (o & Eo); [apply nth_error_Some; congruence|]. rewrite Eo. cbn [obind].
  rewrite Hg. cbn [obind]. destruct (upd_ex (k_ongoing (q_crit (z_st x))) 0 (Datatypes.S g)) as (g' & Eg); [apply nth_error_Some; congruence|]. rewrite Eg. cbn [obind].
  eexists _, _. split; [reflexivity|]. cbn. rewrite (upd_len _ _ _ _ Eo), (upd_len _ _ _ _ Eg), (upd_len _ _ _ _ ET), Hc. auto 10.
Qed.
Lemma decide_taken x : BCommon x -> content (c_fringe (k_c (q_crit (z_st x)))) = [] -> c_ongoing (k_c (q_crit (z_st x))) = 1%nat ->
  decide cfg (q_crit (z_st x)) false = Some (q_crit (z_st x), BWait).
Proof. intros [Hi Hn _] Hc Ho. apply decide_doomed; [congruence| |exact Hn]. apply (fo_empty _ _ _ _ F _ Hi). exact Hc. Qed.

Lemma index_lt x i t : BInv S cfg m x -> nth_error (q_threads (z_st x)) i = Some t -> (i < m)%nat.
Proof. intros HI H. rewrite <- (j_len _ _ _ _ HI). apply nth_error_Some. congruence. Qed.

Lemma bfstep_Stage x y : BInv S cfg m x -> bfstep S eqb cfg fatal x y -> BStage x -> BStage y.
Proof.
  intros HI Hs Hx. destruct Hs as [orc i st st' dead Ho Hn Hf H|i t k T t' st dead Hn Ht H].
  - unfold bthread_step in H. destruct (nth_error (q_threads st) i) as [[p d]|] eqn:E; [|discriminate]. cbn [u_pc u_dd] in H.
    destruct Hx as [C B h1 h2|a ta C B ha hp h1 h2|a ta C ha hp h1 h2 h3].
    + destruct (h1 i _ E) as [Hp|Hp]; cbn in Hp; subst p.
      * destruct (locked cfg st) eqn:El; [discriminate|]. injection H as <-. apply BFresh; cbn in *.
        -- destruct C; constructor; auto.
        -- destruct B; constructor; auto.
        -- intros j u Hu. destruct (Nat.eq_dec j i) as [->|Hj]; [rewrite (put_at _ _ _ _ E) in Hu; injection Hu as <-; right; reflexivity|]. rewrite put_else in Hu by auto. eauto.
        -- exact h2.
      * pose proof (clean_first _ B) as Ec. cbn in Ec. rewrite Ec in H. destruct (decide_first _ C B h2) as (f & Ed & k1 & k2). cbn in Ed. rewrite Ed in H. injection H as <-.
        apply (BTrying _ i (mk_bth (BTry root) d)); cbn in *.
        -- destruct C; constructor; auto.
        -- destruct B; constructor; auto.
        -- eapply put_at; eauto.
        -- left. reflexivity.
        -- intros j u Hu Hj. rewrite put_else in Hu by auto. destruct (h1 j u Hu) as [Hp|Hp]; [exact Hp|]. exfalso. apply Hj.
           eapply (two_holders _ (j_lock _ _ _ _ HI)); eauto. unfold holds. rewrite Hp. reflexivity.
        -- exact k2.
    + destruct (Nat.eq_dec i a) as [->|Hia].
      2:{ pose proof (h1 i _ E Hia) as Hp. cbn in Hp. subst p. exfalso. assert (El : locked cfg st = true).
          { unfold locked. apply existsb_exists. exists ta. split; [eapply nth_error_In; exact ha|]. unfold holds. destruct hp as [-> | ->]; reflexivity. }
          cbn in *. rewrite El in H. discriminate. }
      assert (ta = mk_bth p d) by (cbn in ha; congruence). subst ta. cbn in hp. destruct hp as [-> | ->].
      * pose proof (try_first _ B) as Et. cbn in Et. rewrite Et in H. injection H as <-. apply (BTrying _ a (mk_bth (BInsert root) d)); cbn in *; auto.
        -- destruct C; constructor; auto.
        -- destruct B; constructor; auto.
        -- eapply put_at; eauto.
        -- intros j u Hu Hj. rewrite put_else in Hu by auto. eauto.
      * destruct (take_first _ a B) as (k & T & Et & k1 & k2 & k3 & k4 & k5 & k6 & k7); [pose proof (index_lt _ _ _ HI ha); lia|]. cbn in Et. rewrite Et in H. injection H as <-.
        apply (BTaken _ a (mk_bth (BStart root) d)); cbn in *.
        -- destruct C as [c1 c2 c3]. constructor; cbn in *; [rewrite k1; exact c1|congruence|]. unfold sized in *. cbn in *. rewrite k5, k6, k7. exact c3.
        -- eapply put_at; eauto.
        -- left. split; [reflexivity|]. split; [apply (w_dead _ B)|exact k3].
        -- intros j u Hu Hj. rewrite put_else in Hu by auto. right. left. eauto.
        -- congruence.
        -- exact k2.
    + destruct (Nat.eq_dec i a) as [->|Hia].
      * assert (ta = mk_bth p d) by (cbn in ha; congruence). subst ta. cbn in hp. destruct hp as [(-> & hd & hl)|((q & ->) & _)].
        2:{ exfalso. apply Hf. exists (mk_bth (BRestrict root q) d), root. split; [exact E|]. split; [exact Hroot|]. left. exists q. reflexivity. }
        cbn in *. destruct (locked cfg st); [discriminate|]. rewrite hl in H. change (IMAX <=? IMIN) with false in H. cbn iota in H. injection H as <-.
        eapply BTaken; cbn; eauto; [destruct C; constructor; auto|eapply put_at; eauto| |].
        -- right. split; [eexists; reflexivity|auto].
        -- intros j u Hu Hj. rewrite put_else in Hu by auto. eauto.
      * assert (Hput : forall p' k T, k_c k = k_c (q_crit st) -> sized S cfg (mk_bst k T []) -> pauses (mk_bth p' d) -> BStage (mk_bcs (mk_bst k T (put i (mk_bth p' d) (q_threads st))) dead)).
        { intros p' k T e1 e2 e3. destruct C as [c1 c2 c3]. cbn in *. eapply (BTaken _ a ta); cbn; rewrite ?e1; auto.
          - constructor; cbn; rewrite ?e1; auto.
          - rewrite put_else by auto. exact ha.
          - intros j u Hu Hj. destruct (Nat.eq_dec j i) as [->|Hji]; [rewrite (put_at _ _ _ _ E) in Hu; injection Hu as <-; exact e3|]. rewrite put_else in Hu by auto. eauto. }
        destruct (h1 i _ E Hia) as [Hp|[Hp|Hp]]; cbn in Hp; subst p; [discriminate| |].
        -- destruct (locked cfg st); [discriminate|]. injection H as <-. apply Hput; [reflexivity|apply (r_sized _ C)|right; right; reflexivity].
        -- pose proof (clean_fine _ _ st (r_sized _ C)) as Hc. destruct (clean_turn cfg (q_crit st) (q_table st)) as [[[k' T']|]|]; [| |destruct Hc].
           ++ injection H as <-. destruct Hc as (e1 & e2 & e3 & e4). apply Hput; [exact e1| |right; right; reflexivity].
              pose proof (r_sized _ C) as Hz. unfold sized in *. cbn in *. rewrite e2, e3, e4. exact Hz.
           ++ pose proof (decide_taken _ C h2 h3) as Ed. cbn in Ed. rewrite Ed in H. injection H as <-. apply Hput; [reflexivity|apply (r_sized _ C)|left; reflexivity].
  - destruct (bdies_place _ _ _ _ _ _ _ _ _ _ _ _ H) as (q1 & q2 & q3). destruct Hx as [C B h1 h2|a ta C B ha hp h1 h2|a ta C ha hp h1 h2 h3]; cbn [z_st z_dead] in *.
    + exfalso. destruct (h1 i _ Ht) as [Hp|Hp]; [congruence|]. pose proof (clean_first _ B) as Ec. cbn in Ec. destruct (decide_first _ C B h2) as (f & Ed & _ & _). cbn in Ed.
      destruct H as [E1 E2|E1 E2 E3 E4|? ? E1 E2|? E1 E2|? ? ? ? ? E1 E2|? E1|? ? ? _ E1|? ? ? ? ? _ E1|? ? _ E1]; try congruence.
      * destruct E2 as [E2|(_ & E2 & _)]; congruence.
      * destruct E1 as [(? & E1)|(? & ? & E1)]; congruence.
      * destruct E1 as [E1|(? & E1 & _)]; congruence.
    + exfalso. destruct (Nat.eq_dec i a) as [->|Hia]; [|pose proof (h1 i _ Ht Hia); congruence]. assert (t = ta) by congruence. subst t.
      pose proof (try_first _ B) as Et. cbn in Et. destruct (take_first _ a B) as (k' & T'' & Et' & _); [pose proof (index_lt _ _ _ HI ha); lia|]. cbn in Et'.
      destruct H as [E1 E2|E1 E2 E3 E4|? ? E1 E2|? E1 E2|? ? ? ? ? E1 E2|? E1|? ? ? _ E1|? ? ? ? ? _ E1|? ? _ E1];
        try (destruct E1 as [(? & E1)|(? & ? & E1)]); try (destruct E1 as [E1|(? & E1 & _)]); destruct hp as [hp|hp]; rewrite hp in E1; try discriminate; injection E1 as <-; congruence.
    + destruct (Nat.eq_dec i a) as [->|Hia].
      * assert (t = ta) by congruence. subst t. destruct hp as [(hp & _ & _)|((q & hp) & hd)].
        { exfalso. destruct H as [E1 E2|E1 E2 E3 E4|? ? E1 E2|? E1 E2|? ? ? ? ? E1 E2|? E1|? ? ? _ E1|? ? ? ? ? _ E1|? ? _ E1];
          try (destruct E1 as [(? & E1)|(? & ? & E1)]); try (destruct E1 as [E1|(? & E1 & _)]); congruence. }
        assert (dead = []) as -> by (destruct hd as [hd|hd]; [exact hd|exfalso; apply Hn; rewrite hd; left; reflexivity]).
        assert (Hk : t' = ta /\ T = q_table st /\ c_fringe (k_c k) = c_fringe (k_c (q_crit st)) /\ c_ongoing (k_c k) = c_ongoing (k_c (q_crit st)) /\
                     c_interrupted (k_c k) = c_interrupted (k_c (q_crit st)) /\ k_open k = k_open (q_crit st) /\ k_ongoing k = k_ongoing (q_crit st)).
        { destruct H as [E1 E2|E1 E2 E3 E4|? ? E1 E2|? E1 E2|? ? ? ? ? E1 E2|? E1|? ? ? _ E1|? ? ? ? ? _ E1|? ? _ E1]; try congruence; auto 10. }
        destruct Hk as (-> & -> & e1 & e2 & e3 & e4 & e5). destruct C as [c1 c2 c3]. cbn in *. eapply (BTaken _ a ta); cbn; rewrite ?e1, ?e2; auto.
        -- constructor; cbn; rewrite ?e1, ?e3; auto. unfold sized in *. cbn. rewrite e4, e5. exact c3.
        -- eapply put_at; eauto.
        -- right. split; [eauto|auto].
        -- intros j u Hu Hj. rewrite put_else in Hu by auto. eauto.
      * exfalso. destruct (h1 i _ Ht Hia) as [Hp|[Hp|Hp]]; [congruence|congruence|]. pose proof (clean_fine _ _ st (r_sized _ C)) as Hc. pose proof (decide_taken _ C h2 h3) as Ed. cbn in Ed.
        destruct H as [E1 E2|E1 E2 E3 E4|? ? E1 E2|? E1 E2|? ? ? ? ? E1 E2|? E1|? ? ? _ E1|? ? ? ? ? _ E1|? ? _ E1]; try congruence.
        -- destruct E2 as [E2|(_ & E2 & _)]; [rewrite E2 in Hc; destruct Hc|congruence].
        -- destruct E1 as [(? & E1)|(? & ? & E1)]; congruence.
        -- destruct E1 as [E1|(? & E1 & _)]; congruence.
Qed.
Lemma bcwakes_Stage x y : bcwakes S cfg x y -> BStage x -> BStage y.
Proof.
  intros ((i & d & Hi & Hy) & Hd) Hx. destruct x as [st dead], y as [st' dead']. cbn in *. subst st' dead'.
  destruct Hx as [C B h1 h2|a ta C B ha hp h1 h2|a ta C ha hp h1 h2 h3]; cbn in *.
  - exfalso. destruct (h1 _ _ Hi); discriminate.
  - exfalso. destruct (Nat.eq_dec i a) as [->|Hia]; [|pose proof (h1 _ _ Hi Hia); discriminate]. assert (ta = mk_bth BWait d) by congruence. subst ta. destruct hp; discriminate.
  - assert (Hia : i <> a) by (intros ->; assert (mk_bth BWait d = ta) by congruence; subst ta; destruct hp as [(hp & _)|((q & hp) & _)]; discriminate).
    apply (BTaken _ a ta); cbn; auto.
    + destruct C; constructor; auto.
    + rewrite put_else by auto. exact ha.
    + intros j u Hu Hj. destruct (Nat.eq_dec j i) as [->|Hji]; [rewrite (put_at _ _ _ _ Hi) in Hu; injection Hu as <-; right; left; reflexivity|].
      rewrite put_else in Hu by auto. eapply h1; eauto.
Qed.
Lemma bfreaches_Stage x : bfreaches S eqb cfg fatal n m x -> BStage x /\ BInv S cfg m x.
Proof.
  intros Hx. split; [|apply (bcreaches_Inv S eqb cfg n m x (bfreaches_bcreaches x Hx))]. destruct Hx as (st & H0 & Hr).
  assert (HI : BStage (mk_bcs st [])) by (apply bstart_Stage; auto). remember (mk_bcs st []) as x0 eqn:E.
  assert (HB : forall y, bfruns S eqb cfg fatal x0 y -> BInv S cfg m y) by (intros y Hy; apply (bcreaches_Inv S eqb cfg n m y), bfreaches_bcreaches; subst x0; exists st; auto).
  clear E H0. induction Hr as [x|x y z Hxy IH Hs]; [exact HI|]. specialize (IH HI HB). destruct Hs as [Hs|Hs]; [eapply bfstep_Stage|eapply bcwakes_Stage]; eauto.
Qed.

Lemma BStage_not_ended x : BStage x -> BInv S cfg m x -> ~ bended x.
Proof.
  intros Hx HI He. pose proof (j_len _ _ _ _ HI) as Hl. assert (Hget : forall b, (b < m)%nat -> exists t, nth_error (q_threads (z_st x)) b = Some t).
  { intros b Hb. destruct (nth_error (q_threads (z_st x)) b) as [t|] eqn:E; [eauto|]. apply nth_error_None in E. lia. }
  destruct Hx as [C B h1 h2|a ta C B ha hp h1 h2|a ta C ha hp h1 h2 h3].
  - destruct (Hget 0%nat ltac:(lia)) as (t & E). destruct (He _ _ E) as [H'|H']; [destruct (h1 _ _ E); congruence|]. rewrite (w_dead _ B) in H'. destruct H'.
  - destruct (He _ _ ha) as [H'|H']; [destruct hp; congruence|]. rewrite (w_dead _ B) in H'. destruct H'.
  - destruct (other n m Hm a) as (b & Hb & Hba). destruct (Hget b Hb) as (t & E). destruct (He _ _ E) as [H'|H']; [destruct (h1 _ _ E Hba) as [?|[?|?]]; congruence|].
    destruct hp as [(_ & hd & _)|(_ & [hd|hd])]; rewrite hd in H'; [destruct H'|destruct H'|]. destruct H' as [H'|[]]. congruence.
Qed.
Lemma holder_or (l : list bthread) (f : bthread -> bool) : (exists i t, nth_error l i = Some t /\ f t = true) \/ forall i t, nth_error l i = Some t -> f t = false.
Proof.
  destruct (existsb f l) eqn:E.
  - left. apply existsb_exists in E. destruct E as (t & Hin & Hf). apply In_nth_error in Hin. destruct Hin as (i & Hi). eauto.
  - right. intros i t Hi. destruct (f t) eqn:Ef; [|reflexivity]. assert (existsb f l = true); [|congruence]. apply existsb_exists. exists t. split; [eapply nth_error_In; eauto|exact Ef].
Qed.
Definition isIdle (t : bthread) : bool := match u_pc t with BIdle => true | _ => false end.
Lemma BStage_progress x : BStage x -> BInv S cfg m x -> (bdeserted x /\ length (z_dead x) = 1%nat) \/ exists y, bfstep S eqb cfg fatal x y.
Proof.
  destruct x as [st dead]. intros Hx HI. pose proof (j_len _ _ _ _ HI) as Hl. cbn [z_st] in Hl.
  assert (Hget : forall b, (b < m)%nat -> exists t, nth_error (q_threads st) b = Some t).
  { intros b Hb. destruct (nth_error (q_threads st) b) as [t|] eqn:E; [eauto|]. apply nth_error_None in E. lia. }
  assert (Hgo : forall i t st', nth_error (q_threads st) i = Some t -> ~ In i dead -> (forall q, ~ in_diagram t q) -> bthread_step eqb cfg orc_fwd false i st = BNext st' ->
    exists y, bfstep S eqb cfg fatal (mk_bcs st dead) y).
  { intros i t st' Ht Hi Hq H. eexists. eapply (bfstep_moves _ _ _ _ orc_fwd i); [apply orc_fwd_ok|exact Hi| |exact H].
    intros (t0 & q & Ht0 & _ & Hd). assert (t0 = t) by congruence. subst t0. eapply Hq; eauto. }
  assert (Hnd : forall t : bthread, (forall q p, u_pc t <> BRestrict q p) -> (forall q x p, u_pc t <> BRelaxing q x p) -> forall q, ~ in_diagram t q).
  { intros t H1 H2 q [(p & H)|(x0 & p & H)]; [eapply H1|eapply H2]; eauto. }
  destruct Hx as [C B h1 h2|a ta C B ha hp h1 h2|a ta C ha hp h1 h2 h3]; cbn [z_st z_dead] in *.
  - right. pose proof (w_dead _ B) as Hd. cbn in Hd. subst dead. destruct (holder_or (q_threads st) (@holds S)) as [(i & [p d] & Hi & Hh)|Hno].
    + destruct (h1 _ _ Hi) as [Hp|Hp]; cbn in Hp; subst p; [discriminate|]. destruct (decide_first _ C B h2) as (f & Ed & _ & _). pose proof (clean_first _ B) as Ec. cbn in Ec, Ed.
      eapply Hgo; [exact Hi|auto|apply Hnd; discriminate|]. unfold bthread_step. rewrite Hi. cbn [u_pc]. rewrite Ec, Ed. reflexivity.
    + destruct (Hget 0%nat ltac:(lia)) as ([p d] & Hi). assert (Hp : p = BIdle) by (pose proof (Hno _ _ Hi) as Hh; destruct (h1 _ _ Hi) as [Hp|Hp]; cbn in Hp; subst p; [reflexivity|discriminate]).
      assert (El : locked cfg st = false).
      { destruct (locked cfg st) eqn:El; [|reflexivity]. apply existsb_exists in El. destruct El as (t & Hin & Hh). apply In_nth_error in Hin. destruct Hin as (j & Hj). rewrite (Hno _ _ Hj) in Hh. discriminate. }
      subst p. eapply Hgo; [exact Hi|auto|apply Hnd; discriminate|]. unfold bthread_step. rewrite Hi. cbn [u_pc]. rewrite El. reflexivity.
  - right. pose proof (w_dead _ B) as Hd. cbn in Hd. subst dead. destruct ta as [p d]. cbn in hp. pose proof (try_first _ B) as Et.
    destruct (take_first _ a B) as (k & T & Et' & _); [pose proof (index_lt _ _ _ HI ha); lia|]. cbn in Et, Et'.
    destruct hp as [-> | ->]; (eapply Hgo; [exact ha|auto|apply Hnd; discriminate|]); unfold bthread_step; rewrite ha; cbn [u_pc]; rewrite ?Et, ?Et'; reflexivity.
  - assert (Halive : forall i, i <> a -> ~ In i dead).
    { intros i Hia Hi. destruct hp as [(_ & hd & _)|(_ & [hd|hd])]; rewrite hd in Hi; [destruct Hi|destruct Hi|destruct Hi as [Hi|[]]; congruence]. }
    assert (Hnot : holds ta = false /\ isIdle ta = false).
    { unfold holds, isIdle. destruct hp as [(E & _)|((q & E) & _)]; rewrite E; auto. }
    destruct (holder_or (q_threads st) (@holds S)) as [(i & [p d] & Ht & Hh)|Hno].
    { right. assert (Hia : i <> a) by (intros ->; assert (ta = mk_bth p d) by congruence; subst ta; destruct Hnot; congruence).
      destruct (h1 _ _ Ht Hia) as [Hp|[Hp|Hp]]; cbn in Hp; subst p; try discriminate.
      pose proof (clean_fine _ _ st (r_sized _ C)) as Hc. pose proof (decide_taken _ C h2 h3) as Ed. cbn in Ed.
      destruct (clean_turn cfg (q_crit st) (q_table st)) as [[[k' T']|]|] eqn:Ec; [| |destruct Hc];
        (eapply Hgo; [exact Ht|auto|apply Hnd; discriminate|]); unfold bthread_step; rewrite Ht; cbn [u_pc]; rewrite Ec, ?Ed; reflexivity. }
    assert (El : locked cfg st = false).
    { destruct (locked cfg st) eqn:El; [|reflexivity]. apply existsb_exists in El. destruct El as (t & Hin & Hh). apply In_nth_error in Hin. destruct Hin as (j & Hj). rewrite (Hno _ _ Hj) in Hh. discriminate. }
    destruct hp as [(hp & hd & hl)|((q & Hq) & [hd|hd])].
    + right. subst dead. destruct ta as [p d]. cbn in hp. subst p. eapply Hgo; [exact ha|auto|apply Hnd; discriminate|]. unfold bthread_step. rewrite ha. cbn [u_pc]. rewrite El. reflexivity.
    + right. subst dead. eexists. eapply (bfstep_dies _ _ _ _ a ta); [auto|exact ha|]. eapply bdies_compiling with (n := root). left. eauto.
    + subst dead. destruct (holder_or (q_threads st) isIdle) as [(i & [p d] & Ht & Hh)|Hni].
      * right. assert (Hia : i <> a) by (intros ->; assert (ta = mk_bth p d) by congruence; subst ta; destruct Hnot; congruence).
        assert (Hp : p = BIdle) by (unfold isIdle in Hh; cbn in Hh; destruct p; try discriminate; reflexivity). subst p.
        eapply Hgo; [exact Ht|auto|apply Hnd; discriminate|]. unfold bthread_step. rewrite Ht. cbn [u_pc]. rewrite El. reflexivity.
      * left. split; [|reflexivity]. split; cbn.
        -- intros i t Ht. destruct (Nat.eq_dec i a) as [->|Hia]; [auto|]. right. pose proof (Hno _ _ Ht) as k1. pose proof (Hni _ _ Ht) as k2. unfold holds, isIdle in *.
           destruct (h1 _ _ Ht Hia) as [Hp|[Hp|Hp]]; [exact Hp| |]; rewrite Hp in *; discriminate.
        -- destruct (other n m Hm a) as (b & Hb & Hba). destruct (Hget b Hb) as (t & E). exists b, t. split; [exact E|]. intros [H|[]]. auto.
Qed.
Lemma BStage_stuck x : BStage x -> BInv S cfg m x -> (forall y, ~ bfstep S eqb cfg fatal x y) -> bdeserted x /\ length (z_dead x) = 1%nat.
Proof. intros Hx HI Hs. destruct (BStage_progress x Hx HI) as [H|(y & H)]; [exact H|destruct (Hs y H)]. Qed.

(** The steps come to an end. *)
Definition ahead (t : bthread) : nat :=
  match u_pc t with BIdle => 12 | BClean => 11 | BTry _ => 10 | BInsert _ => 9 | BStart _ => 8 | BRestrict _ _ => 7 | _ => 0 end.
Fixpoint total (l : list bthread) : nat := match l with [] => 0%nat | t :: r => (ahead t + total r)%nat end.
Lemma total_put i t' : forall l t, nth_error l i = Some t -> (total (put i t' l) + ahead t = total l + ahead t')%nat.
Proof. induction i as [|i IH]; intros [|h l] t H; cbn in *; try discriminate; [injection H as ->; lia|]. specialize (IH _ _ H). lia. Qed.
Definition bleft (x : bcstate) : nat := (total (q_threads (z_st x)) + (N - k_lowest (q_crit (z_st x))) + (1 - length (z_dead x)))%nat.
Lemma clean_lowest k T k' T' : clean_turn cfg k T = Some (Some (k', T')) -> (N - k_lowest k' < N - k_lowest k)%nat.
Proof.
  unfold clean_turn. destruct (k_lowest k <? N)%nat eqn:E; [|discriminate]. apply Nat.ltb_lt in E. destruct (nth_error (k_open k) (k_lowest k)) as [o|]; [|discriminate]. cbn [obind].
  destruct (nth_error (k_ongoing k) (k_lowest k)) as [g|]; [|discriminate]. cbn [obind]. destruct (o + g =? 0)%nat; [|discriminate].
  destruct (upd T (k_lowest k) []) as [T0|]; [|discriminate]. cbn [obind]. intros H. injection H as <- <-. cbn. lia.
Qed.
Lemma bfstep_left x y : BInv S cfg m x -> BStage x -> bfstep S eqb cfg fatal x y -> (bleft y < bleft x)%nat.
Proof.
  intros HI Hx Hs. unfold bleft. destruct Hs as [orc i st st' dead Ho Hn Hf H|i t k T t' st dead Hn Ht H].
  - unfold bthread_step in H. destruct (nth_error (q_threads st) i) as [[p d]|] eqn:E; [|discriminate]. cbn [u_pc u_dd] in H. cbn [z_st z_dead].
    assert (Hput : forall k T p', (ahead (mk_bth p' d) + (N - k_lowest k) < ahead (mk_bth p d) + (N - k_lowest (q_crit st)))%nat -> BNext (mk_bst k T (put i (mk_bth p' d) (q_threads st))) = BNext st' ->
      (total (q_threads st') + (N - k_lowest (q_crit st')) + (1 - length dead) < total (q_threads st) + (N - k_lowest (q_crit st)) + (1 - length dead))%nat).
    { intros k T p' Ha He. injection He as <-. cbn [q_threads q_crit]. pose proof (total_put i (mk_bth p' d) _ _ E). lia. }
    assert (Hclean : p = BClean -> forall k' T', clean_turn cfg (q_crit st) (q_table st) = Some (Some (k', T')) -> goto cfg st i k' T' (mk_bth BClean d) = BNext st' ->
      (total (q_threads st') + (N - k_lowest (q_crit st')) + (1 - length dead) < total (q_threads st) + (N - k_lowest (q_crit st)) + (1 - length dead))%nat).
    { intros -> k' T' Ec He. apply clean_lowest in Ec. eapply Hput; [|exact He]. cbn. lia. }
    destruct Hx as [C B h1 h2|a ta C B ha hp h1 h2|a ta C ha hp h1 h2 h3].
    + destruct (h1 i _ E) as [Hp|Hp]; cbn in Hp; subst p.
      * destruct (locked cfg st) eqn:El; [discriminate|]. eapply Hput; [|exact H]. cbn. lia.
      * pose proof (clean_first _ B) as Ec. cbn in Ec. rewrite Ec in H. destruct (decide_first _ C B h2) as (f & Ed & k1 & k2). cbn in Ed. rewrite Ed in H. eapply Hput; [|exact H]. cbn. lia.
    + destruct (Nat.eq_dec i a) as [->|Hia].
      2:{ pose proof (h1 i _ E Hia) as Hp. cbn in Hp. subst p. exfalso. assert (El : locked cfg st = true).
          { unfold locked. apply existsb_exists. exists ta. split; [eapply nth_error_In; exact ha|]. unfold holds. destruct hp as [-> | ->]; reflexivity. }
          cbn in *. rewrite El in H. discriminate. }
      assert (ta = mk_bth p d) by (cbn in ha; congruence). subst ta. cbn in hp. destruct hp as [-> | ->].
      * pose proof (try_first _ B) as Et. cbn in Et. rewrite Et in H. eapply Hput; [|exact H]. cbn. lia.
      * destruct (take_node eqb cfg (q_crit st) (q_table st) a root) as [[k T]|] eqn:Et; [|discriminate].
        assert (Hlow : k_lowest k = k_lowest (q_crit st)).
        { clear - Et. unfold take_node in Et. repeat match type of Et with obind ?e _ = _ => destruct e; [|discriminate]; cbn [obind] in Et end. injection Et as <- _. reflexivity. }
        eapply Hput; [|exact H]. cbn. lia.
    + destruct (Nat.eq_dec i a) as [->|Hia].
      * assert (ta = mk_bth p d) by (cbn in ha; congruence). subst ta. cbn in hp. destruct hp as [(-> & hd & hl)|((q & ->) & _)].
        2:{ exfalso. apply Hf. exists (mk_bth (BRestrict root q) d), root. split; [exact E|]. split; [exact Hroot|]. left. exists q. reflexivity. }
        destruct (locked cfg st); [discriminate|]. eapply Hput; [|exact H]. destruct (sp_ub root <=? _); cbn; lia.
      * destruct (h1 i _ E Hia) as [Hp|[Hp|Hp]]; cbn in Hp; subst p; [discriminate| |].
        -- destruct (locked cfg st); [discriminate|]. eapply Hput; [|exact H]. cbn. lia.
        -- pose proof (clean_fine _ _ st (r_sized _ C)) as Hc. destruct (clean_turn cfg (q_crit st) (q_table st)) as [[[k' T']|]|] eqn:Ec; [| |destruct Hc].
           ++ eapply Hclean; eauto.
           ++ pose proof (decide_taken _ C h2 h3) as Ed. cbn in Ed. rewrite Ed in H. eapply Hput; [|exact H]. cbn. lia.
  - pose proof (bfstep_Stage _ _ HI (bfstep_dies _ _ _ _ i t k T t' st dead Hn Ht H) Hx) as Hy.
    assert (Hdead : dead = []).
    { destruct Hx as [C B h1 h2|a ta C B ha hp h1 h2|a ta C ha hp h1 h2 h3]; try exact (w_dead _ B). cbn in *. destruct hp as [(_ & hd & _)|(_ & [hd|hd])]; auto.
      destruct Hy as [C' B' _ _|? ? C' B' _ _ _ _|a' ta' _ _ hp' _ _ _]; try (pose proof (w_dead _ B') as Hd'; cbn in Hd'; discriminate).
      cbn in hp'. destruct hp' as [(_ & hd' & _)|(_ & [hd'|hd'])]; try discriminate. subst dead. discriminate. }
    subst dead. cbn [z_st z_dead length q_threads q_crit].
    assert (Hsame : t' = t /\ k_lowest k = k_lowest (q_crit st)).
    { destruct Hx as [C B h1 h2|a ta C B ha hp h1 h2|a ta C ha hp h1 h2 h3].
      - exfalso. destruct Hy as [C' B' _ _|? ? C' B' _ _ _ _|a' ta' _ ha' hp' h1' h2' h3']; try (pose proof (w_dead _ B') as Hd'; cbn in Hd'; discriminate).
        cbn in *. destruct hp' as [(_ & hd' & _)|((q & Hq) & [hd'|hd'])]; try discriminate. injection hd' as <-. rewrite (put_at _ _ _ _ Ht) in ha'. injection ha' as <-.
        destruct (h1 _ _ Ht) as [Hp|Hp]; destruct (bdies_place _ _ _ _ _ _ _ _ _ _ _ _ H) as (q1 & q2 & q3); [congruence|].
        destruct H as [E1 E2|E1 E2 E3 E4|? ? E1 E2|? E1 E2|? ? ? ? ? E1 E2|? E1|? ? ? _ E1|? ? ? ? ? _ E1|? ? _ E1]; cbn in Hq; congruence.
      - exfalso. destruct Hy as [C' B' _ _|? ? C' B' _ _ _ _|a' ta' _ ha' hp' h1' h2' h3']; try (pose proof (w_dead _ B') as Hd'; cbn in Hd'; discriminate).
        cbn in *. destruct hp' as [(_ & hd' & _)|((q & Hq) & [hd'|hd'])]; try discriminate. injection hd' as <-. rewrite (put_at _ _ _ _ Ht) in ha'. injection ha' as <-.
        destruct H as [E1 E2|E1 E2 E3 E4|? ? E1 E2|? E1 E2|? ? ? ? ? E1 E2|? E1|? ? ? _ E1|? ? ? ? ? _ E1|? ? _ E1]; cbn in Hq; try congruence.
        all: destruct (Nat.eq_dec i a) as [->|Hia]; [assert (t = ta) by congruence; subst t; destruct hp; congruence|pose proof (h1 _ _ Ht Hia); congruence].
      - destruct Hy as [C' B' _ _|? ? C' B' _ _ _ _|a' ta' _ ha' hp' h1' h2' h3']; try (pose proof (w_dead _ B') as Hd'; cbn in Hd'; discriminate).
        cbn in *. destruct hp' as [(_ & hd' & _)|((q & Hq) & [hd'|hd'])]; try discriminate. injection hd' as <-. rewrite (put_at _ _ _ _ Ht) in ha'. injection ha' as <-.
        destruct H as [E1 E2|E1 E2 E3 E4|? ? E1 E2|? E1 E2|? ? ? ? ? E1 E2|? E1|? ? ? _ E1|? ? ? ? ? _ E1|? ? _ E1]; cbn in Hq; try congruence; auto. }
    destruct Hsame as (-> & ->). pose proof (total_put i t _ _ Ht). lia.
Qed.
Lemma BStage_finite x : bfreaches S eqb cfg fatal n m x -> ~ exists f : nat -> bcstate, f 0%nat = x /\ forall k, bfstep S eqb cfg fatal (f k) (f (Datatypes.S k)).
Proof.
  intros Hx (f & H0 & Hf). assert (H : forall k, bfreaches S eqb cfg fatal n m (f k) /\ (bleft (f k) + k <= bleft x)%nat).
  { induction k as [|k [IH1 IH2]]; [rewrite H0; split; [exact Hx|lia]|]. split.
    - destruct IH1 as (st & h1 & h2). exists st. split; [exact h1|]. eapply bfruns_step; eauto.
    - destruct (bfreaches_Stage _ IH1) as (h1 & h2). pose proof (bfstep_left _ _ h2 h1 (Hf k)). lia. }
  destruct (H (Datatypes.S (bleft x))) as (_ & H1). lia.
Qed.

Lemma bfatal_root x : bfreaches S eqb cfg fatal n m x ->
  ~ bended x /\ (~ exists f : nat -> bcstate, f 0%nat = x /\ forall k, bfstep S eqb cfg fatal (f k) (f (Datatypes.S k))) /\
  ((forall y, ~ bfstep S eqb cfg fatal x y) -> bdeserted x /\ length (z_dead x) = 1%nat).
Proof.
  intros H. destruct (bfreaches_Stage x H) as (h1 & h2). exact (conj (BStage_not_ended x h1 h2) (conj (BStage_finite x H) (BStage_stuck x h1 h2))).
Qed.
(** It happens. *)
Lemma bfatal_happens : exists x, bfreaches S eqb cfg fatal n m x /\ bdeserted x.
Proof.
  destruct (fo_new _ _ _ _ F) as (h1 & _). destruct (fo_push _ _ _ _ F (fr_new fr) (root_node cfg) h1) as (f & E & _ & _).
  assert (H0 : exists st, binitial cfg n m = Some st) by (unfold binitial; rewrite E; cbn; eauto). destruct H0 as (st & H0).
  assert (Hx : bfreaches S eqb cfg fatal n m (mk_bcs st [])) by (exists st; split; [exact H0|apply bfruns_refl]). clear - F Hm Hroot Hx.
  assert (H : forall k x, (bleft x <= k)%nat -> bfreaches S eqb cfg fatal n m x -> exists y, bfreaches S eqb cfg fatal n m y /\ bdeserted y).
  { induction k as [|k IH]; intros x Hk Hr; destruct (bfreaches_Stage x Hr) as (Hs & HI); (destruct (BStage_progress x Hs HI) as [(H & _)|(y & H)]; [eauto|]); pose proof (bfstep_left x y HI Hs H); [lia|].
    apply (IH y ltac:(lia)). destruct Hr as (s0 & r1 & r2). exists s0. split; [exact r1|]. eapply bfruns_step; eauto. }
  eapply (H (bleft (mk_bcs st []))); [|exact Hx]. lia.
Qed.
End Proofs.
