(** A panic in one thread of the solver with thresholds: the others go on, and then wait for ever. *)
From Verif Require Import ParSpec BarSpec FringeSpec ParFacts CrashSpec CrashProofs.
Open Scope Z_scope.

Section Bar.
Variable S : Type.
Variable eqb : S -> S -> bool.
Variable cfg : config S.
Notation fr := (cf_fr cfg).
Notation bthread := (bthread S).
Notation bstate := (bstate S cfg).
Notation bcstate := (bcstate S cfg).
Notation bcstep := (bcstep S eqb cfg).
Notation bcruns := (bcruns S eqb cfg).

Definition bbusyb (t : bthread) : bool :=
  match u_pc t with BStart _ | BRestrict _ _ | BRelax _ _ | BRelaxing _ _ _ | BNotify _ _ => true | _ => false end.
Definition trying (t : bthread) : bool := match u_pc t with BTry _ | BInsert _ => true | _ => false end.
Lemma bbusyb_busy t : bbusyb t = true <-> bbusy S t.
Proof. unfold bbusyb, bbusy. destruct (u_pc t); split; intros; auto; discriminate || contradiction. Qed.
Lemma bwake_busyb (t : bthread) : bbusyb (bwake t) = bbusyb t.
Proof. unfold bwake, bbusyb. destruct t as [[] d]; reflexivity. Qed.
Lemma bwake_holds (t : bthread) : holds (bwake t) = holds t.
Proof. unfold bwake, holds. destruct t as [[] d]; reflexivity. Qed.
Lemma bwake_trying (t : bthread) : trying (bwake t) = trying t.
Proof. unfold bwake, trying. destruct t as [[] d]; reflexivity. Qed.
Lemma trying_holds (l : list bthread) : (tally trying l <= tally holds l)%nat.
Proof.
  induction l as [|[p d] l IH]; [reflexivity|]. rewrite !tally_cons. unfold trying at 1, holds at 1. cbn [u_pc]. destruct p; lia.
Qed.
Lemma tally_exists (l : list bthread) : existsb holds l = false -> tally (@holds S) l = 0%nat.
Proof. induction l as [|a l IH]; [reflexivity|]. cbn [existsb]. rewrite tally_cons. destruct (holds a); [discriminate|]. exact IH. Qed.

(** Nothing is left to do. *)
Definition bover (st : bstate) : Prop :=
  c_ongoing (k_c (q_crit st)) = 0%nat /\ fr_empty fr (c_fringe (k_c (q_crit st))) = true /\ tally trying (q_threads st) = 0%nat.
Record BInv (m : nat) (x : bcstate) : Prop := {
  j_len : length (q_threads (z_st x)) = m;
  j_busy : (tally bbusyb (q_threads (z_st x)) <= c_ongoing (k_c (q_crit (z_st x))))%nat;
  j_over : forall t, In t (q_threads (z_st x)) -> u_pc t = BDone -> bover (z_st x);
  j_lock : (tally holds (q_threads (z_st x)) <= 1)%nat;
  j_go : c_interrupted (k_c (q_crit (z_st x))) = false }.

Lemma bover_nobody m x : BInv m x -> bover (z_st x) -> forall i t, nth_error (q_threads (z_st x)) i = Some t -> bbusyb t = false /\ trying t = false.
Proof.
  intros HI (Ho & _ & Hz) i t Ht. split.
  - destruct (bbusyb t) eqn:E; [|reflexivity]. pose proof (tally_at bbusyb _ _ _ Ht E). pose proof (j_busy _ _ HI). lia.
  - destruct (trying t) eqn:E; [|reflexivity]. pose proof (tally_at trying _ _ _ Ht E). lia.
Qed.
Lemma bin_put (l : list bthread) i x t : In t (put i x l) -> t = x \/ In t l.
Proof.
  revert i. induction l as [|h l IH]; intros [|i] H; cbn in *; auto.
  - destruct H as [H|H]; auto.
  - destruct H as [H|H]; [auto|]. destruct (IH _ H); auto.
Qed.

Definition finished (k : bcritical S cfg) : Prop := c_ongoing (k_c k) = 0%nat /\ fr_empty fr (c_fringe (k_c k)) = true.
Lemma BInv_put m x i t t' k T dead : BInv m x -> nth_error (q_threads (z_st x)) i = Some t ->
  (c_ongoing (k_c (q_crit (z_st x))) + (if bbusyb t' then 1 else 0) <= c_ongoing (k_c k) + (if bbusyb t then 1 else 0))%nat ->
  c_interrupted (k_c k) = false ->
  (holds t' = true -> holds t = true \/ locked cfg (z_st x) = false) ->
  (u_pc t' = BDone -> holds t = true /\ finished k) ->
  (bover (z_st x) -> finished k /\ trying t' = false) ->
  BInv m (mk_bcs (mk_bst k T (put i t' (q_threads (z_st x)))) dead).
Proof.
  intros HI Ht Hb Hi Hh Hd Ho. destruct HI as [L B O M G]. pose proof (tally_put holds i t' _ _ Ht) as Th. pose proof (tally_put trying i t' _ _ Ht) as Tt.
  constructor; cbn [z_st q_threads q_crit].
  - rewrite put_length. exact L.
  - pose proof (tally_put bbusyb i t' _ _ Ht). lia.
  - intros u Hu E. unfold bover. cbn [q_crit q_threads]. destruct (bin_put _ _ _ _ Hu) as [->|Hu'].
    + destruct (Hd E) as [Hh' [h1 h2]]. split; [exact h1|]. split; [exact h2|]. pose proof (trying_holds (put i t' (q_threads (z_st x)))) as Hl.
      rewrite Hh' in Th. assert (E' : holds t' = false) by (unfold holds; rewrite E; reflexivity). rewrite E' in Th. lia.
    + pose proof (O u Hu' E) as Hov. destruct (Ho Hov) as [[h1 h2] h3]. split; [exact h1|]. split; [exact h2|].
      destruct Hov as (_ & _ & Hz). rewrite h3 in Tt. destruct (trying t); lia.
  - destruct (holds t') eqn:E; [|lia]. destruct (Hh eq_refl) as [E'|E']; [rewrite E' in Th; lia|]. apply tally_exists in E'. lia.
  - exact Hi.
Qed.

Lemma clean_keeps k T k' T' : clean_turn cfg k T = Some (Some (k', T')) -> k_c k' = k_c k.
Proof.
  unfold clean_turn. destruct (k_lowest k <? _)%nat; [|discriminate]. destruct (nth_error (k_open k) _) as [o|]; [|discriminate]. cbn.
  destruct (nth_error (k_ongoing k) _) as [g|]; [|discriminate]. cbn. destruct (o + g =? 0)%nat; [|discriminate].
  destruct (upd T _ _) as [T1|]; [|discriminate]. cbn. intros H. injection H as <- <-. reflexivity.
Qed.

Lemma decide_over k : finished k -> exists k', decide cfg k false = Some (k', BDone) /\ finished k' /\ c_interrupted (k_c k') = c_interrupted (k_c k).
Proof. intros [H1 H2]. unfold decide. rewrite H1, H2. cbn. eexists. split; [reflexivity|]. cbn. repeat split; auto. Qed.
Lemma decide_else k k' p : ~ finished k -> c_interrupted (k_c k) = false -> decide cfg k false = Some (k', p) ->
  c_ongoing (k_c k') = c_ongoing (k_c k) /\ c_interrupted (k_c k') = false /\ (p = BWait \/ exists n, p = BTry n).
Proof.
  intros Hn Hi. unfold decide. destruct (Nat.eqb (c_ongoing (k_c k)) 0 && fr_empty fr (c_fringe (k_c k)))%bool eqn:E.
  - apply andb_true_iff in E. destruct E as [E1 E2]. apply Nat.eqb_eq in E1. exfalso. apply Hn. split; auto.
  - rewrite Hi. destruct (fr_empty fr (c_fringe (k_c k))); [intros H; injection H as <- <-; auto|].
    destruct (fr_pop fr _) as [[[nn|] f]|]; try discriminate. cbn. intros H. injection H as <- <-. cbn. eauto.
Qed.
Lemma try_keeps k T n k' p : try_node eqb cfg k T n = Some (k', p) ->
  c_ongoing (k_c k') = c_ongoing (k_c k) /\ c_interrupted (k_c k') = c_interrupted (k_c k) /\ (p = BIdle \/ p = BInsert n \/ exists n', p = BTry n').
Proof.
  unfold try_node. destruct (sp_ub n <=? c_lb (k_c k)); [intros H; injection H as <- <-; cbn; auto|].
  destruct (nth_error T _) as [l|]; [|discriminate]. cbn. match goal with |- context [if ?b then _ else _] => destruct b end; [intros H; injection H as <- <-; auto|].
  destruct (decr (k_open k) _) as [o|]; [|discriminate]. cbn. destruct (fr_empty fr _); [intros H; injection H as <- <-; cbn; auto|].
  destruct (fr_pop fr _) as [[[nn|] f]|]; try discriminate. cbn. intros H. injection H as <- <-. cbn. eauto 6.
Qed.
Lemma take_keeps k T i n k' T' : take_node eqb cfg k T i n = Some (k', T') ->
  c_ongoing (k_c k') = Datatypes.S (c_ongoing (k_c k)) /\ c_interrupted (k_c k') = c_interrupted (k_c k).
Proof.
  unfold take_node. destruct (nth_error T _) as [l|]; [|discriminate]. cbn. destruct (upd T _ _) as [T1|]; [|discriminate]. cbn.
  destruct (upd (c_ubs _) i _) as [ubs|]; [|discriminate]. cbn. destruct (decr _ _) as [o|]; [|discriminate]. cbn. destruct (incr _ _) as [g|]; [|discriminate]. cbn.
  intros H. injection H as <- <-. auto.
Qed.
Lemma benqueue_keeps k d u k' d' : benqueue_cutset cfg k d u = Some (k', d') -> c_ongoing (k_c k') = c_ongoing (k_c k) /\ c_interrupted (k_c k') = c_interrupted (k_c k).
Proof.
  unfold benqueue_cutset. destruct (drain_cutset d) as [[l d1]|]; [|discriminate]. cbn. destruct (ofold _ l _) as [[f o]|]; [|discriminate]. cbn.
  intros H. injection H as <- <-. auto.
Qed.

(** A step between two busy places leaves the counter alone. *)
Lemma busy_Inv m st dead i t t' k T : BInv m (mk_bcs st dead) -> nth_error (q_threads st) i = Some t -> bbusyb t = true -> bbusyb t' = true ->
  c_ongoing (k_c k) = c_ongoing (k_c (q_crit st)) -> c_interrupted (k_c k) = c_interrupted (k_c (q_crit st)) ->
  BInv m (mk_bcs (mk_bst k T (put i t' (q_threads st))) dead).
Proof.
  intros HI Ht Hb Hb' Ho Hi. pose proof (j_go _ _ HI) as G. cbn in G. eapply (BInv_put m (mk_bcs st dead)); eauto.
  - cbn. rewrite Hb, Hb', Ho. lia.
  - unfold holds, bbusyb in *. destruct (u_pc t'); discriminate.
  - intros E. unfold bbusyb in Hb'. rewrite E in Hb'. discriminate.
  - intros Hov. destruct (bover_nobody _ _ HI Hov i t Ht). congruence.
Qed.

Lemma bstep_Inv m st st' dead orc i : bthread_step eqb cfg orc false i st = BNext st' -> BInv m (mk_bcs st dead) -> BInv m (mk_bcs st' dead).
Proof.
  intros H HI. unfold bthread_step in H. destruct (nth_error (q_threads st) i) as [t|] eqn:Ht; [|discriminate].
  pose proof (j_go _ _ HI) as G. cbn in G. pose proof (fun Ho => bover_nobody _ _ HI Ho i t Ht) as Hq. cbn [z_st] in Hq.
  destruct t as [p d]. cbn [u_pc u_dd] in H. destruct p as [| | |n|n|n|n p|n x|n x p|depth x|]; try discriminate.
  - (* BIdle *)
    destruct (locked cfg st) eqn:El; [discriminate|]. injection H as <-. eapply (BInv_put m (mk_bcs st dead)); eauto; cbn; try discriminate; try lia.
    intros (h1 & h2 & _). repeat split; auto.
  - (* BClean *)
    destruct (clean_turn cfg (q_crit st) (q_table st)) as [[[k' T']|]|] eqn:Ec; [| |discriminate].
    + injection H as <-. pose proof (clean_keeps _ _ _ _ Ec) as Ek. eapply (BInv_put m (mk_bcs st dead)); eauto; cbn; rewrite ?Ek; try discriminate; auto.
      intros (h1 & h2 & _). unfold finished. rewrite Ek. repeat split; auto.
    + destruct (decide cfg (q_crit st) false) as [[k' p]|] eqn:Ed; [|discriminate]. injection H as <-.
      destruct (Nat.eqb (c_ongoing (k_c (q_crit st))) 0 && fr_empty fr (c_fringe (k_c (q_crit st))))%bool eqn:Eo.
      * apply andb_true_iff in Eo. destruct Eo as [E1 E2]. apply Nat.eqb_eq in E1.
        destruct (decide_over (q_crit st) (conj E1 E2)) as (k1 & h & [h1 h2] & h3). rewrite h in Ed. injection Ed as <- <-.
        eapply (BInv_put m (mk_bcs st dead)); eauto; cbn; try lia; try discriminate; try congruence.
        { intros _. repeat split; auto. } { intros _. repeat split; auto. }
      * assert (Hno : ~ finished (q_crit st)) by (intros [h1 h2]; rewrite h1, h2 in Eo; discriminate).
        destruct (decide_else _ _ _ Hno G Ed) as (h1 & h2 & h3).
        eapply (BInv_put m (mk_bcs st dead)); eauto; cbn.
        { destruct h3 as [->|(n & ->)]; cbn; lia. }
        { destruct h3 as [->|(n & ->)]; discriminate. }
        { intros (q1 & q2 & _). exfalso. apply Hno. split; auto. }
  - (* BTry *)
    destruct (try_node eqb cfg (q_crit st) (q_table st) n) as [[k' p]|] eqn:E; [|discriminate]. injection H as <-.
    destruct (try_keeps _ _ _ _ _ E) as (h1 & h2 & h3).
    eapply (BInv_put m (mk_bcs st dead)); eauto; cbn.
    + destruct h3 as [->|[->|(n' & ->)]]; cbn; lia.
    + destruct h3 as [->|[->|(n' & ->)]]; discriminate.
    + intros Ho. destruct (Hq Ho). discriminate.
  - (* BInsert *)
    destruct (take_node eqb cfg (q_crit st) (q_table st) i n) as [[k' T']|] eqn:E; [|discriminate]. injection H as <-.
    destruct (take_keeps _ _ _ _ _ _ E) as (h1 & h2).
    eapply (BInv_put m (mk_bcs st dead)); eauto; cbn; try discriminate; try lia; try congruence.
    intros Ho. destruct (Hq Ho). discriminate.
  - (* BStart *)
    destruct (locked cfg st); [discriminate|]. injection H as <-. eapply busy_Inv; eauto. destruct (sp_ub n <=? _); reflexivity.
  - (* BRestrict *)
    destruct p as [d'| |dp kp|dp s kp|dp s ip kp].
    + destruct (locked cfg st); [discriminate|]. destruct (maybe_update_best cfg (k_c (q_crit st)) d') as [c'|] eqn:E; [|discriminate]. injection H as <-.
      destruct (update_keeps _ _ _ _ _ E) as (h1 & h2 & h3). eapply busy_Inv; eauto. destruct (g_exact d'); reflexivity.
    + discriminate.
    + unfold compile_step in H. destruct (access _ _ _) as [[p' T']|]; [|discriminate]. injection H as <-. eapply busy_Inv; eauto.
    + unfold compile_step in H. destruct (access _ _ _) as [[p' T']|]; [|discriminate]. injection H as <-. eapply busy_Inv; eauto.
    + unfold compile_step in H. destruct (access _ _ _) as [[p' T']|]; [|discriminate]. injection H as <-. eapply busy_Inv; eauto.
  - (* BRelax *)
    destruct (locked cfg st); [discriminate|]. injection H as <-. eapply busy_Inv; eauto.
  - (* BRelaxing *)
    destruct p as [d'| |dp kp|dp s kp|dp s ip kp].
    + destruct (locked cfg st); [discriminate|]. destruct (g_exact d').
      * destruct (maybe_update_best cfg (k_c (q_crit st)) d') as [c'|] eqn:E; [|discriminate]. injection H as <-.
        destruct (update_keeps _ _ _ _ _ E) as (h1 & h2 & h3). eapply busy_Inv; eauto.
      * destruct (benqueue_cutset cfg (q_crit st) d' (sp_ub n)) as [[k' d'']|] eqn:E; [|discriminate]. injection H as <-.
        destruct (benqueue_keeps _ _ _ _ _ E) as (h1 & h2). eapply busy_Inv; eauto.
    + discriminate.
    + unfold compile_step in H. destruct (access _ _ _) as [[p' T']|]; [|discriminate]. injection H as <-. eapply busy_Inv; eauto.
    + unfold compile_step in H. destruct (access _ _ _) as [[p' T']|]; [|discriminate]. injection H as <-. eapply busy_Inv; eauto.
    + unfold compile_step in H. destruct (access _ _ _) as [[p' T']|]; [|discriminate]. injection H as <-. eapply busy_Inv; eauto.
  - (* BNotify *)
    destruct (locked cfg st); [discriminate|]. destruct (bfinish_node cfg (q_crit st) i depth x) as [k'|] eqn:E; [|discriminate]. injection H as <-.
    unfold bfinish_node in E. destruct (finish_node cfg (k_c (q_crit st)) i x) as [c'|] eqn:Ec; [|discriminate]. cbn in E.
    destruct (decr _ depth) as [g|]; [|discriminate]. cbn in E. injection E as <-.
    unfold finish_node in Ec. destruct (c_ongoing (k_c (q_crit st))) as [|o] eqn:Eo; [discriminate|]. destruct (upd _ i IMAX) as [ubs|]; [|discriminate]. cbn in Ec. injection Ec as <-.
    match goal with |- BInv m (mk_bcs (mk_bst ?k ?T (map bwake ?l)) dead) => assert (Hp : BInv m (mk_bcs (mk_bst k T l) dead)) end.
    { eapply (BInv_put m (mk_bcs st dead)); eauto; cbn; try discriminate; try lia. intros Ho. destruct (Hq Ho). discriminate. }
    destruct Hp as [L B O M G']. constructor; cbn [z_st q_threads q_crit] in *; auto.
    + rewrite map_length. exact L.
    + rewrite tally_map; [exact B|apply bwake_busyb].
    + intros t Hin E. apply in_map_iff in Hin. destruct Hin as (u & <- & Hu). assert (Eu : u_pc u = BDone) by (destruct u as [[] ?]; cbn in *; try discriminate; reflexivity).
      destruct (O u Hu Eu) as (q1 & q2 & q3). unfold bover. cbn [q_threads q_crit] in *. rewrite tally_map; [auto|apply bwake_trying].
    + rewrite tally_map; [exact M|apply bwake_holds].
Qed.

Lemma bdies_Inv m st dead i t k T t' free : nth_error (q_threads st) i = Some t -> bdies eqb (q_crit st) (q_table st) i false free t k T t' -> BInv m (mk_bcs st dead) ->
  BInv m (mk_bcs (mk_bst k T (put i t' (q_threads st))) (i :: dead)).
Proof.
  intros Ht H HI. pose proof (j_go _ _ HI) as G. cbn in G. pose proof (fun Ho => bover_nobody _ _ HI Ho i t Ht) as Hq. cbn [z_st] in Hq.
  assert (W : forall k T t', BInv m (mk_bcs (mk_bst k T (put i t' (q_threads st))) dead) -> BInv m (mk_bcs (mk_bst k T (put i t' (q_threads st))) (i :: dead)))
    by (intros ? ? ? [? ? ? ? ?]; constructor; auto).
  apply W. clear W. destruct H as [Hp _|Hp _ _ E|n o Hp _|n Hp _ _|n l T' ubs o Hp _ _ _ _|n Hp|n d v _ Hp _ _|n x d f o _ Hp _ _ _|depth x _ Hp _]; try discriminate.
  - eapply (BInv_put m (mk_bcs st dead)); eauto; cbn; try discriminate; try lia. intros (h1 & h2 & _). repeat split; auto.
  - assert (Hy : trying t = true) by (unfold trying; rewrite Hp; reflexivity).
    eapply (BInv_put m (mk_bcs st dead)); eauto; cbn; try discriminate; try lia; try (intros Ho; destruct (Hq Ho); congruence).
  - assert (Hy : trying t = true) by (unfold trying; rewrite Hp; reflexivity).
    eapply (BInv_put m (mk_bcs st dead)); eauto; cbn; try discriminate; try lia; try (intros Ho; destruct (Hq Ho); congruence).
  - assert (Hy : trying t = true) by (unfold trying; rewrite Hp; reflexivity).
    eapply (BInv_put m (mk_bcs st dead)); eauto; cbn; try discriminate; try lia; try (intros Ho; destruct (Hq Ho); congruence).
  - assert (Hb : bbusyb t = true) by (unfold bbusyb; destruct Hp as [(p & ->)|(x & p & ->)]; reflexivity). eapply busy_Inv; eauto.
  - assert (Hb : bbusyb t = true) by (unfold bbusyb; destruct Hp as [->|(x & -> & _)]; reflexivity). eapply busy_Inv; eauto.
  - assert (Hb : bbusyb t = true) by (unfold bbusyb; rewrite Hp; reflexivity). eapply busy_Inv; eauto.
  - assert (Hb : bbusyb t = true) by (unfold bbusyb; rewrite Hp; reflexivity).
    eapply (BInv_put m (mk_bcs st dead)); eauto; cbn; try discriminate; rewrite ?Hb; try lia; intros Ho; destruct (Hq Ho); congruence.
Qed.

Lemma bwakes_Inv m x y : bcwakes S cfg x y -> BInv m x -> BInv m y.
Proof.
  intros [(i & d & Ht & E) Hd] HI. destruct y as [st' dead']. cbn in *. subst. eapply BInv_put; eauto; cbn; try discriminate; try lia. - exact (j_go _ _ HI).
  - intros (h1 & h2 & _). repeat split; auto.
Qed.
Lemma bstart_Inv n m st : binitial cfg n m = Some st -> BInv m (mk_bcs st []).
Proof.
  unfold binitial. destruct (fr_push fr (fr_new fr) (root_node cfg)) as [f|]; [|discriminate]. cbn. intros H. injection H as <-.
  constructor; cbn.
  - apply repeat_length.
  - induction m; cbn; [lia|exact IHm].
  - intros t Ht. apply repeat_spec in Ht. subst. discriminate.
  - induction m; cbn; [lia|exact IHm].
  - reflexivity.
Qed.
Lemma bcreaches_Inv n m x : bcreaches S eqb cfg false n m x -> BInv m x.
Proof.
  intros (st & H0 & Hr). remember (mk_bcs st []) as x0 eqn:E. assert (HI : BInv m x0) by (subst; eapply bstart_Inv; eauto). clear E H0.
  induction Hr as [x|x y z _ IH Hs]; [exact HI|]. specialize (IH HI). destruct Hs as [Hs|Hs]; [|eapply bwakes_Inv; eauto].
  destruct Hs as [orc intr i s s' dead _ Hs _ Hst|intr i t k T t' s dead Hs _ Ht Hd].
  - destruct intr; [specialize (Hs eq_refl); discriminate|]. eapply bstep_Inv; eauto.
  - destruct intr; [specialize (Hs eq_refl); discriminate|]. eapply bdies_Inv; eauto.
Qed.

Lemma bstep_others orc intr i st st' j t : bthread_step eqb cfg orc intr i st = BNext st' -> j <> i -> nth_error (q_threads st) j = Some t -> bbusy S t ->
  nth_error (q_threads st') j = Some t.
Proof.
  intros H Hj Ht Hb. unfold bthread_step in H. destruct (nth_error (q_threads st) i) as [[p d]|] eqn:E; [|discriminate]. cbn [u_pc u_dd] in H.
  assert (Hl : forall k T u, goto cfg st i k T u = BNext st' -> nth_error (q_threads st') j = Some t).
  { intros k T u Ho. unfold goto in Ho. injection Ho as <-. cbn. rewrite put_else; auto. }
  assert (Hk : forall p f d, compile_step eqb cfg st i p f d = BNext st' -> nth_error (q_threads st') j = Some t).
  { intros p0 f0 d0 Ho. unfold compile_step in Ho. destruct (access _ _ _) as [[p' T']|]; [|discriminate]. eapply Hl; eauto. }
  assert (Hc : forall o : option (bcritical S cfg * bthread), (if locked cfg st then BDisabled else match o with None => BPanic | Some (k', t') => goto cfg st i k' (q_table st) t' end) = BNext st' ->
    nth_error (q_threads st') j = Some t).
  { intros o Ho. destruct (locked cfg st); [discriminate|]. destruct o as [[k' t']|]; [|discriminate]. eapply Hl; eauto. }
  destruct p as [| | |n|n|n|n p|n x|n x p|depth x|]; try discriminate; try (eapply Hc; exact H); try (solve [destruct (locked cfg st); [discriminate|eapply Hl; exact H]]); try (destruct p; first [eapply Hc; exact H|eapply Hk; exact H]).
  - destruct (clean_turn cfg _ _) as [[[k' T']|]|]; [eapply Hl; eauto| |discriminate]. destruct (decide cfg _ intr) as [[k' p]|]; [eapply Hl; eauto|discriminate].
  - destruct (try_node eqb cfg _ _ n) as [[k' p]|]; [eapply Hl; eauto|discriminate].
  - destruct (take_node eqb cfg _ _ i n) as [[k' T']|]; [eapply Hl; eauto|discriminate].
  - destruct (locked cfg st); [discriminate|]. destruct (bfinish_node cfg (q_crit st) i depth x) as [c'|]; [|discriminate]. injection H as <-. cbn. rewrite nth_error_map, put_else, Ht by auto.
    cbn. unfold bwake, bbusy in *. destruct (u_pc t); auto; contradiction.
Qed.
Lemma bat_work_stays stop x y : bcruns stop x y -> bdied_at_work x -> bdied_at_work y.
Proof.
  intros Hr Hx. induction Hr as [x|x y z _ IH Hs]; [exact Hx|]. destruct (IH Hx) as (j & t & Hj & Ht & Hb). clear IH Hx.
  destruct Hs as [Hs|[(i & d & Hi & E) Hd]].
  - destruct Hs as [orc intr i s s' dead _ _ Hn Hst|intr i u k T u' s dead _ Hn Hu Hd]; cbn in *.
    + exists j, t. split; [exact Hj|]. split; [|exact Hb]. eapply bstep_others; eauto. intros ->. auto.
    + exists j, t. cbn. split; [auto|]. split; [|exact Hb]. rewrite put_else; [exact Ht|]. intros ->. auto.
  - exists j, t. rewrite Hd, E. split; [exact Hj|]. split; [|exact Hb]. cbn. rewrite put_else; [exact Ht|]. intros ->. rewrite Hi in Ht. injection Ht as <-. destruct Hb.
Qed.
Lemma ball_or_none n m x y : bcreaches S eqb cfg false n m x -> bdied_at_work x -> bcruns false x y -> bended y -> forall i, (i < m)%nat -> In i (z_dead y).
Proof.
  intros Hx Hw Hr He i Hi. assert (Hy : bcreaches S eqb cfg false n m y).
  { destruct Hx as (st & H0 & Hx). exists st. split; [exact H0|]. clear Hw He. induction Hr as [y|y z z' _ IH Hs]; [exact Hx|]. eapply bcruns_step; [apply IH; exact Hx|exact Hs]. }
  pose proof (bat_work_stays _ _ _ Hr Hw) as (j & t & Hj & Ht & Hb). pose proof (bcreaches_Inv _ _ _ Hy) as HI.
  destruct (nth_error (q_threads (z_st y)) i) as [u|] eqn:Eu.
  2:{ apply nth_error_None in Eu. rewrite (j_len _ _ HI) in Eu. lia. }
  destruct (He i u Eu) as [Hd|Hd]; [exfalso|exact Hd].
  pose proof (j_over _ _ HI u (nth_error_In _ _ Eu) Hd) as Ho. destruct (bover_nobody _ _ HI Ho j t Ht) as [Hn _]. apply bbusyb_busy in Hb. congruence.
Qed.

(** * A deserted solver *)
Lemma bdies_place k T i intr free t k' T' t' : bdies eqb (cfg := cfg) k T i intr free t k' T' t' -> u_pc t <> BWait /\ u_pc t <> BIdle /\ u_pc t <> BDone.
Proof.
  intros H. destruct H as [E|E|? ? E|? E|? ? ? ? ? E|? E|? ? ? _ E|? ? ? ? ? _ E|? ? _ E]; try (rewrite E; repeat split; discriminate).
  - destruct E as [(p & ->)|(x & p & ->)]; repeat split; discriminate.
  - destruct E as [->|(x & -> & _)]; repeat split; discriminate.
Qed.
Lemma bdeserted_stuck stop (x y : bcstate) : bdeserted x -> ~ bcstep stop x y.
Proof.
  intros [Hd _] Hs. destruct Hs as [orc intr i st st' dead _ _ Hn H|intr i t k T t' st dead _ Hn Ht H]; cbn in Hd.
  - unfold bthread_step in H. destruct (nth_error (q_threads st) i) as [[p d]|] eqn:E; [|discriminate]. destruct (Hd i _ E) as [Hin|Hp]; [contradiction|].
    cbn in Hp. subst p. discriminate.
  - destruct (Hd i _ Ht) as [Hin|Hp]; [contradiction|]. destruct (bdies_place _ _ _ _ _ _ _ _ _ H) as [H1 _]. contradiction.
Qed.
Lemma bdeserted_not_ended (x : bcstate) : bdeserted x -> ~ bended x.
Proof.
  intros [Hd (i & t & Ht & Hn)] He. destruct (Hd i t Ht) as [H|H]; [contradiction|]. destruct (He i t Ht) as [H'|H']; [congruence|contradiction].
Qed.
(** Even when waiting threads wake up for no reason, as long as nobody asks to stop. *)
Definition sized (st : bstate) : Prop :=
  (pb_nb_vars (cf_pb cfg) <= length (k_open (q_crit st)) /\ pb_nb_vars (cf_pb cfg) <= length (k_ongoing (q_crit st)) /\ pb_nb_vars (cf_pb cfg) <= length (q_table st))%nat.
Record BDoomed (a : nat) (x : bcstate) : Prop := {
  e_one : exists t, nth_error (q_threads (z_st x)) a = Some t; e_alive : ~ In a (z_dead x);
  e_idle : forall i t, nth_error (q_threads (z_st x)) i = Some t -> In i (z_dead x) \/ u_pc t = BWait \/ u_pc t = BIdle \/ u_pc t = BClean;
  e_crit : c_ongoing (k_c (q_crit (z_st x))) <> 0%nat /\ fr_empty fr (c_fringe (k_c (q_crit (z_st x)))) = true /\ c_interrupted (k_c (q_crit (z_st x))) = false;
  e_sized : sized (z_st x) }.
Lemma decide_doomed (k : bcritical S cfg) : c_ongoing (k_c k) <> 0%nat -> fr_empty fr (c_fringe (k_c k)) = true -> c_interrupted (k_c k) = false -> decide cfg k false = Some (k, BWait).
Proof.
  intros H1 H2 H3. unfold decide. rewrite H2, H3. destruct (Nat.eqb (c_ongoing (k_c k)) 0) eqn:E; [apply Nat.eqb_eq in E; contradiction|]. reflexivity.
Qed.
Lemma clean_fine st : sized st -> match clean_turn cfg (q_crit st) (q_table st) with
  | None => False | Some None => True
  | Some (Some (k, T)) => k_c k = k_c (q_crit st) /\ k_open k = k_open (q_crit st) /\ k_ongoing k = k_ongoing (q_crit st) /\ length T = length (q_table st) end.
Proof.
  intros (s1 & s2 & s3). unfold clean_turn. destruct (k_lowest (q_crit st) <? _)%nat eqn:El; [|exact I]. apply Nat.ltb_lt in El.
  destruct (nth_error (k_open (q_crit st)) _) as [o|] eqn:E1; [|apply nth_error_None in E1; lia]. cbn.
  destruct (nth_error (k_ongoing (q_crit st)) _) as [g|] eqn:E2; [|apply nth_error_None in E2; lia]. cbn.
  destruct (o + g =? 0)%nat; [|exact I]. destruct (upd_some (q_table st) (k_lowest (q_crit st)) []) as (T & E3 & E4); [lia|]. rewrite E3. cbn. auto.
Qed.
Lemma BDoomed_put a x i t t' k T : BDoomed a x -> nth_error (q_threads (z_st x)) i = Some t -> u_pc t' = BWait \/ u_pc t' = BIdle \/ u_pc t' = BClean ->
  k_c k = k_c (q_crit (z_st x)) -> sized (mk_bst k T []) -> BDoomed a (mk_bcs (mk_bst k T (put i t' (q_threads (z_st x)))) (z_dead x)).
Proof.
  intros [(u & Hu) A I C Z] Ht Hp Hk Hz. constructor; cbn; auto.
  - destruct (Nat.eq_dec a i) as [->|Hn]; [exists t'; eapply put_at; eauto|exists u; rewrite put_else; auto].
  - intros j v Hj. destruct (Nat.eq_dec j i) as [->|Hn]; [|rewrite put_else in Hj by auto; eauto].
    rewrite (put_at _ _ _ _ Ht) in Hj. injection Hj as <-. auto.
  - rewrite Hk. exact C.
Qed.
Lemma bdoomed_runs a x y : bcruns false x y -> BDoomed a x -> BDoomed a y.
Proof.
  intros Hr HD. induction Hr as [x|x y z _ IH Hs]; [exact HD|]. specialize (IH HD). pose proof (e_sized _ _ IH) as Hz. destruct Hs as [Hs|[(i & d & Hi & E) Hd]].
  - destruct Hs as [orc intr i st st' dead _ Hs Hn H|intr i t k T t' st dead Hs Hn Ht H]; (destruct intr; [specialize (Hs eq_refl); discriminate|]);
      pose proof (e_crit _ _ IH) as (c1 & c2 & c3); cbn in c1, c2, c3, Hz; pose proof (clean_fine st Hz) as Hc.
    + unfold bthread_step in H. destruct (nth_error (q_threads st) i) as [[p d]|] eqn:E; [|discriminate].
      destruct (e_idle _ _ IH i _ E) as [Hin|[Hp|[Hp|Hp]]]; [contradiction| | |]; cbn in Hp; subst p; cbn [u_pc u_dd] in H; [discriminate| |].
      * destruct (locked cfg st); [discriminate|]. injection H as <-. eapply (BDoomed_put a (mk_bcs st dead)); eauto.
      * destruct (clean_turn cfg (q_crit st) (q_table st)) as [[[k' T']|]|]; [| |discriminate].
        { destruct Hc as (h1 & h2 & h3 & h4). injection H as <-. eapply (BDoomed_put a (mk_bcs st dead)); eauto. unfold sized in *. cbn. rewrite h2, h3, h4. exact Hz. }
        { rewrite decide_doomed in H by auto. injection H as <-. eapply (BDoomed_put a (mk_bcs st dead)); eauto. }
    + exfalso. destruct (bdies_place _ _ _ _ _ _ _ _ _ H) as (p1 & p2 & p3).
      destruct (e_idle _ _ IH i _ Ht) as [Hin|[Hp|[Hp|Hp]]]; try contradiction.
      destruct H as [E Hx|E C D|? ? E|? E|? ? ? ? ? E|? E|? ? ? _ E|? ? ? ? ? _ E|? ? _ E]; rewrite ?Hp in E; try discriminate.
      * destruct Hx as [Hx|(h1 & h2 & _)]; [rewrite Hx in Hc; exact Hc|]. rewrite decide_doomed in h2 by auto. discriminate.
      * destruct E as [(p & E)|(x0 & p & E)]; congruence.
      * destruct E as [E|(x0 & E & _)]; congruence.
  - destruct z as [st' dead']. cbn in *. subst. eapply (BDoomed_put a y); eauto.
Qed.
Lemma bdeserted_for_ever (x y : bcstate) : bdeserted x -> c_ongoing (k_c (q_crit (z_st x))) <> 0%nat -> fr_empty fr (c_fringe (k_c (q_crit (z_st x)))) = true ->
  c_interrupted (k_c (q_crit (z_st x))) = false -> sized (z_st x) -> bcruns false x y -> ~ bended y.
Proof.
  intros [Hd (a & t & Ht & Hn)] H1 H2 H3 H4 Hr He. assert (HD : BDoomed a x).
  { constructor; eauto. intros i u Hu. destruct (Hd i u Hu); auto. }
  pose proof (bdoomed_runs _ _ _ Hr HD) as [(u & Hu) A I _ _]. destruct (He a u Hu) as [E|E]; [|contradiction]. destruct (I a u Hu) as [E'|[E'|[E'|E']]]; [contradiction| | |]; congruence.
Qed.

Lemma bone_thread stop n x : bcreaches S eqb cfg stop n 1 x -> z_dead x <> [] -> bended x.
Proof.
  intros (st & H0 & Hr) Hd. assert (Hl : length (q_threads (z_st x)) = 1%nat /\ forall i, In i (z_dead x) -> i = 0%nat).
  { remember (mk_bcs st []) as x0 eqn:E. assert (HI : length (q_threads (z_st x0)) = 1%nat /\ forall i, In i (z_dead x0) -> i = 0%nat).
    { subst. unfold binitial in H0. destruct (fr_push fr _ _); [|discriminate]. cbn in H0. injection H0 as <-. cbn. split; [reflexivity|intros i []]. }
    clear E H0 Hd. induction Hr as [x|x y z _ IH Hs]; [exact HI|]. specialize (IH HI). destruct IH as [L D]. destruct Hs as [Hs|[(i & d & Hi & E) Hd]].
    - destruct Hs as [orc intr i s s' dead _ _ Hn H|intr i t k T t' s dead _ Hn Ht H]; cbn in *.
      + split; [|exact D]. rewrite <- L. clear - H. unfold bthread_step in H. destruct (nth_error (q_threads s) i) as [[p d]|] eqn:E; [|discriminate]. cbn [u_pc u_dd] in H.
        assert (Hl : forall k T u, goto cfg s i k T u = BNext s' -> length (q_threads s') = length (q_threads s)).
        { intros k T u Ho. unfold goto in Ho. injection Ho as <-. cbn. apply put_length. }
        assert (Hk : forall p f d, compile_step eqb cfg s i p f d = BNext s' -> length (q_threads s') = length (q_threads s)).
        { intros p0 f0 d0 Ho. unfold compile_step in Ho. destruct (access _ _ _) as [[p' T']|]; [|discriminate]. eapply Hl; eauto. }
        assert (Hc : forall o : option (bcritical S cfg * bthread), (if locked cfg s then BDisabled else match o with None => BPanic | Some (k', t') => goto cfg s i k' (q_table s) t' end) = BNext s' ->
          length (q_threads s') = length (q_threads s)).
        { intros o Ho. destruct (locked cfg s); [discriminate|]. destruct o as [[k' t']|]; [|discriminate]. eapply Hl; eauto. }
        destruct p as [| | |n'|n'|n'|n' p|n' x|n' x p|depth x|]; try discriminate; try (eapply Hc; exact H); try (solve [destruct (locked cfg s); [discriminate|eapply Hl; exact H]]); try (destruct p; first [eapply Hc; exact H|eapply Hk; exact H]).
        * destruct (clean_turn cfg _ _) as [[[k' T']|]|]; [eapply Hl; eauto| |discriminate]. destruct (decide cfg _ intr) as [[k' p]|]; [eapply Hl; eauto|discriminate].
        * destruct (try_node eqb cfg _ _ n') as [[k' p]|]; [eapply Hl; eauto|discriminate].
        * destruct (take_node eqb cfg _ _ i n') as [[k' T']|]; [eapply Hl; eauto|discriminate].
        * destruct (locked cfg s); [discriminate|]. destruct (bfinish_node cfg (q_crit s) i depth x); [|discriminate]. injection H as <-. cbn. rewrite map_length. apply put_length.
      + rewrite put_length. split; [exact L|]. intros j [<-|Hj]; [|auto]. assert (Hi : (i < 1)%nat) by (rewrite <- L; apply nth_error_Some; congruence). lia.
    - rewrite Hd, E. cbn. rewrite put_length. auto. }
  destruct Hl as [L D]. intros i t Ht. right. assert (Hi : (i < 1)%nat) by (rewrite <- L; apply nth_error_Some; congruence).
  assert (i = 0%nat) by lia. subst. destruct (z_dead x) as [|j l]; [congruence|]. rewrite (D j (or_introl eq_refl)). left. reflexivity.
Qed.
End Bar.

(** What a panic leaves to the caller. *)
Lemma bpanic_keeps S eqb (cfg : config S) stop x y : bcstep S eqb cfg stop x y -> z_dead y <> z_dead x ->
  c_lb (k_c (q_crit (z_st x))) <= c_lb (k_c (q_crit (z_st y))) /\ c_ub (k_c (q_crit (z_st y))) = c_ub (k_c (q_crit (z_st x))) /\
  c_sol (k_c (q_crit (z_st y))) = c_sol (k_c (q_crit (z_st x))).
Proof.
  intros H D. destruct H as [orc intr i st st' dead _ _ _ _|intr i t k T t' st dead _ _ _ H]; [exfalso; apply D; reflexivity|].
  cbn. destruct H; cbn; repeat split; lia.
Qed.
Lemma bfirst_panic S eqb (cfg : config S) stop n m x : bcreaches S eqb cfg stop n m x -> z_dead x <> [] ->
  exists y z, bcreaches S eqb cfg stop n m y /\ bcstep S eqb cfg stop y z /\ z_dead z <> z_dead y.
Proof.
  intros (st & H0 & H). remember (mk_bcs st []) as x0 eqn:E. induction H as [x|x y z Hr IH Hs]; intros D.
  - subst. cbn in D. congruence.
  - destruct (list_eq_dec Nat.eq_dec (z_dead z) (z_dead y)) as [e|ne].
    + rewrite e in D. exact (IH E D).
    + subst. destruct Hs as [Hs|[_ Hw]]; [|congruence]. exists y, z. split; [exists st; auto|]. auto.
Qed.
