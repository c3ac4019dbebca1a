(** The solver with thresholds after an interruption. *)
From Verif Require Import ParSpec BarSpec FringeSpec ParFacts ObeySpec CrashProofs CrashBarProofs ObeyProofs.
Open Scope Z_scope.

Section Bar.
Variable S : Type.
Variable eqb : S -> S -> bool.
Variable cfg : config S.
Notation bstate := (bstate S cfg).
Notation trying := (CrashBarProofs.trying S).
Notation crit := (fun st : bstate => k_c (q_crit st)).

Definition bdiagrams_left (t : bthread S) : nat := match u_pc t with BStart _ => 2 | BRestrict _ _ | BRelax _ _ => 1 | _ => 0 end.
Definition Calm (st : bstate) : Prop := c_interrupted (crit st) = true /\ forall t, In t (q_threads st) -> trying t = false.
Definition BKept (st st' : bstate) (d : nat) : Prop :=
  Calm st' /\ c_explored (crit st') = c_explored (crit st) /\ (d + sums bdiagrams_left (q_threads st') <= sums bdiagrams_left (q_threads st))%nat.

Lemma bmoved st i t t' k T d : Calm st -> nth_error (q_threads st) i = Some t -> trying t' = false -> c_interrupted (k_c k) = true -> c_explored (k_c k) = c_explored (crit st) ->
  (d + bdiagrams_left t' <= bdiagrams_left t)%nat -> BKept st (mk_bst k T (put i t' (q_threads st))) d.
Proof.
  intros [_ Hc] Ht Htr Hi He Hd. pose proof (sums_put bdiagrams_left i t' _ _ Ht). unfold BKept, Calm. cbn [q_crit q_threads]. repeat split; auto; [|lia].
  intros t0 Hin. apply bin_put in Hin. destruct Hin as [->|Hin]; auto.
Qed.
Lemma bwake_diagrams (t : bthread S) : bdiagrams_left (bwake t) = bdiagrams_left t.
Proof. destruct t as [[] d]; reflexivity. Qed.
Lemma bwake_trying (t : bthread S) : trying (bwake t) = trying t.
Proof. destruct t as [[] d]; reflexivity. Qed.
Lemma clean_keeps k T k' T' : clean_turn cfg k T = Some (Some (k', T')) -> k_c k' = k_c k.
Proof.
  unfold clean_turn, obind. destruct (_ <? _)%nat; [|discriminate]. destruct (nth_error (k_open k) _); [|discriminate]. destruct (nth_error (k_ongoing k) _); [|discriminate].
  destruct (_ =? 0)%nat; [|discriminate]. destruct (upd T _ []); [|discriminate]. intros [= <- <-]. reflexivity.
Qed.
Lemma decide_asked k intr k' p : decide cfg k intr = Some (k', p) -> c_interrupted (k_c k) = true ->
  c_interrupted (k_c k') = true /\ c_explored (k_c k') = c_explored (k_c k) /\ p = BDone.
Proof. unfold decide. intros H Hi. rewrite Hi in H. destruct (Nat.eqb _ 0 && _); injection H as <- <-; auto. Qed.
Lemma benqueue_keeps k d u k' d' : benqueue_cutset cfg k d u = Some (k', d') -> c_interrupted (k_c k') = c_interrupted (k_c k) /\ c_explored (k_c k') = c_explored (k_c k).
Proof.
  unfold benqueue_cutset, obind. destruct (drain_cutset d) as [[l e]|]; [|discriminate]. destruct (ofold _ l _) as [[f o]|]; [|discriminate]. intros [= <- <-]. auto.
Qed.
Lemma bfinish_keeps k i dp x k' : bfinish_node cfg k i dp x = Some k' -> c_interrupted (k_c k') = c_interrupted (k_c k) /\ c_explored (k_c k') = c_explored (k_c k).
Proof.
  unfold bfinish_node, obind. destruct (finish_node cfg (k_c k) i x) as [c|] eqn:E; [|discriminate]. destruct (decr _ dp); [|discriminate]. intros [= <-]. exact (finish_keeps _ _ _ _ _ _ E).
Qed.

Lemma bstep_kept orc intr i st st' : Calm st -> bthread_step eqb cfg orc intr i st = BNext st' -> BKept st st' (if bcompiles S cfg st i then 1 else 0).
Proof.
  intros HC. destruct HC as [Ha Hq]. assert (Calm st) as HC by (split; auto). unfold bthread_step, bcompiles. destruct (nth_error (q_threads st) i) as [t|] eqn:Ht; [|discriminate].
  pose proof (Hq t (nth_error_In _ _ Ht)) as Hnt. destruct (u_pc t) eqn:Hp; try discriminate; unfold goto.
  - destruct (locked cfg st); [discriminate|]. intros [= <-]. apply (bmoved st i t); auto; try (unfold bdiagrams_left; rewrite Hp; cbn [u_pc]; lia).
  - destruct (clean_turn cfg (q_crit st) (q_table st)) as [[[k' T']|]|] eqn:E; [| |discriminate].
    + intros [= <-]. pose proof (clean_keeps _ _ _ _ E) as Ek. apply (bmoved st i t); auto; try (unfold bdiagrams_left; rewrite Hp; cbn [u_pc]; lia); rewrite Ek; auto.
    + destruct (decide cfg (q_crit st) intr) as [[k' p]|] eqn:E2; [|discriminate]. destruct (decide_asked _ _ _ _ E2 Ha) as (H1 & H2 & ->). intros [= <-]. apply (bmoved st i t); auto; try (unfold bdiagrams_left; rewrite Hp; cbn [u_pc]; lia).
  - unfold trying in Hnt. rewrite Hp in Hnt. discriminate.
  - unfold trying in Hnt. rewrite Hp in Hnt. discriminate.
  - destruct (locked cfg st); [discriminate|]. intros [= <-]. apply (bmoved st i t); auto; try (unfold bdiagrams_left; rewrite Hp; cbn [u_pc]; lia); unfold trying, bdiagrams_left; rewrite ?Hp; cbn [u_pc]; destruct (sp_ub n <=? _); auto; lia.
  - assert (forall q, match access eqb q (q_table st) with None => BPanic | Some (p', T') => BNext (mk_bst (q_crit st) T' (put i (mk_bth (BRestrict n p') (u_dd t)) (q_threads st))) end = BNext st' -> BKept st st' 0) as HA.
    { intros q. destruct (access eqb q (q_table st)) as [[p' T']|]; [|discriminate]. intros [= <-]. apply (bmoved st i t); auto; try (unfold bdiagrams_left; rewrite Hp; cbn [u_pc]; lia). }
    destruct p eqn:Ep; cbv iota; unfold compile_step, goto; try apply HA.
    destruct (locked cfg st); [discriminate|]. destruct (maybe_update_best cfg (k_c (q_crit st)) a) as [c'|] eqn:E; cbn [obind]; [|discriminate]. intros [= <-]. destruct (update_keeps _ _ _ _ _ E).
    apply (bmoved st i t); auto; try (unfold bdiagrams_left; rewrite Hp; cbn [u_pc]; lia); cbn [with_c k_c]; try congruence; unfold trying, bdiagrams_left; rewrite ?Hp; cbn [u_pc]; destruct (g_exact a); auto; lia.
  - destruct (locked cfg st); [discriminate|]. intros [= <-]. apply (bmoved st i t); auto; try (unfold bdiagrams_left; rewrite Hp; cbn [u_pc]; lia).
  - assert (forall q, match access eqb q (q_table st) with None => BPanic | Some (p', T') => BNext (mk_bst (q_crit st) T' (put i (mk_bth (BRelaxing n k p') (u_dd t)) (q_threads st))) end = BNext st' -> BKept st st' 0) as HA.
    { intros q. destruct (access eqb q (q_table st)) as [[p' T']|]; [|discriminate]. intros [= <-]. apply (bmoved st i t); auto; try (unfold bdiagrams_left; rewrite Hp; cbn [u_pc]; lia). }
    destruct p eqn:Ep; cbv iota; unfold compile_step, goto; try apply HA.
    destruct (locked cfg st); [discriminate|]. destruct (g_exact a).
    + destruct (maybe_update_best cfg (k_c (q_crit st)) a) as [c'|] eqn:E; cbn [obind]; [|discriminate]. intros [= <-]. destruct (update_keeps _ _ _ _ _ E).
      apply (bmoved st i t); auto; try (unfold bdiagrams_left; rewrite Hp; cbn [u_pc]; lia); cbn [with_c k_c]; congruence.
    + destruct (benqueue_cutset cfg (q_crit st) a (sp_ub n)) as [[k' d'']|] eqn:E; cbn [obind]; [|discriminate]. intros [= <-]. destruct (benqueue_keeps _ _ _ _ _ E).
      apply (bmoved st i t); auto; try (unfold bdiagrams_left; rewrite Hp; cbn [u_pc]; lia); congruence.
  - destruct (locked cfg st); [discriminate|]. destruct (bfinish_node cfg (q_crit st) i depth k) as [k'|] eqn:E; [|discriminate]. intros [= <-]. destruct (bfinish_keeps _ _ _ _ _ E).
    assert (BKept st (mk_bst k' (q_table st) (put i (mk_bth BIdle (u_dd t)) (q_threads st))) 0) as ([K1 K2] & K3 & K4) by (apply (bmoved st i t); auto; try (unfold bdiagrams_left; rewrite Hp; cbn [u_pc]; lia); congruence).
    unfold BKept, Calm. cbn [q_crit q_threads] in *. rewrite (sums_map _ bwake) by exact bwake_diagrams. repeat split; auto.
    intros t0 Hin. apply in_map_iff in Hin. destruct Hin as (t1 & <- & Hin). rewrite bwake_trying. auto.
Qed.
Lemma bspurious_kept st st' : Calm st -> bspurious S cfg st st' -> BKept st st' 0.
Proof. intros HC (i & d & Ht & ->). pose proof HC as [Ha Hq]. apply (bmoved st i (mk_bth BWait d)); auto. Qed.
Lemma qexec_kept st d st' : Calm st -> qexec S eqb cfg d st st' -> BKept st st' d.
Proof.
  intros Ha H. induction H as [st|d st st' st'' orc intr i _ IH Ho Hs|d st st' st'' _ IH Hs].
  - unfold BKept. auto.
  - destruct (IH Ha) as (K1 & K2 & K3). destruct (bstep_kept _ _ _ _ _ K1 Hs) as (L1 & L2 & L3). unfold BKept. split; [exact L1|]. split; [congruence|lia].
  - destruct (IH Ha) as (K1 & K2 & K3). destruct (bspurious_kept _ _ K1 Hs) as (L1 & L2 & L3). unfold BKept. split; [exact L1|]. split; [congruence|lia].
Qed.

(** Whoever has popped a subproblem holds the lock, so that nobody has when the flag is set. *)
Definition Lock (st : bstate) : Prop := (tally (@holds S) (q_threads st) <= 1)%nat /\ (c_interrupted (crit st) = true -> Calm st).

Lemma try_keeps k T n k' p : try_node eqb cfg k T n = Some (k', p) -> c_interrupted (k_c k') = c_interrupted (k_c k).
Proof.
  unfold try_node, obind. destruct (sp_ub n <=? _); [intros [= <- <-]; reflexivity|]. destruct (nth_error T _); [|discriminate].
  match goal with |- (if ?b then _ else _) = _ -> _ => destruct b end; [intros [= <- <-]; reflexivity|]. destruct (decr _ _); [|discriminate]. destruct (fr_empty _ _); [intros [= <- <-]; reflexivity|].
  destruct (fr_pop _ _) as [[[r|] f]|]; try discriminate. intros [= <- <-]. reflexivity.
Qed.
Lemma take_keeps k T i n k' T' : take_node eqb cfg k T i n = Some (k', T') -> c_interrupted (k_c k') = c_interrupted (k_c k).
Proof.
  unfold take_node, obind. destruct (nth_error T _); [|discriminate]. destruct (upd T _ _); [|discriminate]. destruct (upd _ i _); [|discriminate]. destruct (decr _ _); [|discriminate].
  destruct (incr _ _); [|discriminate]. intros [= <- <-]. reflexivity.
Qed.
Lemma decide_asks k intr k' p : decide cfg k intr = Some (k', p) -> c_interrupted (k_c k') = c_interrupted (k_c k) \/ p = BDone.
Proof.
  unfold decide, obind. destruct (Nat.eqb _ 0 && _); [intros [= <- <-]; auto|]. destruct (c_interrupted (k_c k)) eqn:E; [intros [= <- <-]; auto|]. destruct intr.
  - destruct (if (0 <? _)%nat then _ else _) as [[u f]|]; [|discriminate]. intros [= <- <-]. auto.
  - destruct (fr_empty _ _); [intros [= <- <-]; auto|]. destruct (fr_pop _ _) as [[[r|] f]|]; try discriminate. intros [= <- <-]. auto.
Qed.
Lemma bstep_how orc intr i st st' : bthread_step eqb cfg orc intr i st = BNext st' -> exists t t', nth_error (q_threads st) i = Some t /\
  (q_threads st' = put i t' (q_threads st) \/ q_threads st' = map bwake (put i t' (q_threads st))) /\
  (holds t' = true -> holds t = true \/ locked cfg st = false) /\
  (c_interrupted (crit st') = c_interrupted (crit st) \/ holds t = true /\ holds t' = false).
Proof.
  unfold bthread_step. destruct (nth_error (q_threads st) i) as [t|] eqn:Ht; [|discriminate]. destruct (u_pc t) eqn:Hp; try discriminate; unfold goto; intros H;
    try (destruct (locked cfg st) eqn:Hl; [discriminate|]).
  - injection H as <-. exists t. eexists. split; [reflexivity|]. split; [left; reflexivity|]. split; [auto|left; cbn [q_crit with_c k_c]; auto].
  - assert (holds t = true) as Hh by (unfold holds; rewrite Hp; reflexivity).
    destruct (clean_turn cfg (q_crit st) (q_table st)) as [[[k' T']|]|] eqn:E; [| |discriminate].
    + injection H as <-. exists t. eexists. split; [reflexivity|]. split; [left; reflexivity|]. split; [auto|]. left. cbn [q_crit]. rewrite (clean_keeps _ _ _ _ E). reflexivity.
    + destruct (decide cfg (q_crit st) intr) as [[k' p]|] eqn:E2; [|discriminate]. injection H as <-. exists t. eexists. split; [reflexivity|]. split; [left; reflexivity|]. split; [auto|].
      cbn [q_crit]. destruct (decide_asks _ _ _ _ E2) as [-> | ->]; auto.
  - assert (holds t = true) as Hh by (unfold holds; rewrite Hp; reflexivity).
    destruct (try_node eqb cfg (q_crit st) (q_table st) n) as [[k' p]|] eqn:E; [|discriminate]. injection H as <-. exists t. eexists. split; [reflexivity|]. split; [left; reflexivity|]. split; [auto|].
    left. exact (try_keeps _ _ _ _ _ E).
  - assert (holds t = true) as Hh by (unfold holds; rewrite Hp; reflexivity).
    destruct (take_node eqb cfg (q_crit st) (q_table st) i n) as [[k' T']|] eqn:E; [|discriminate]. injection H as <-. exists t. eexists. split; [reflexivity|]. split; [left; reflexivity|]. split; [auto|].
    left. exact (take_keeps _ _ _ _ _ _ E).
  - injection H as <-. exists t. eexists. split; [reflexivity|]. split; [left; reflexivity|]. split; [auto|left; cbn [q_crit with_c k_c]; auto].
  - assert (forall q, match access eqb q (q_table st) with None => BPanic | Some (p', T') => BNext (mk_bst (q_crit st) T' (put i (mk_bth (BRestrict n p') (u_dd t)) (q_threads st))) end = BNext st' -> exists t0 t', Some t = Some t0 /\
      (q_threads st' = put i t' (q_threads st) \/ q_threads st' = map bwake (put i t' (q_threads st))) /\ (holds t' = true -> holds t0 = true \/ locked cfg st = false) /\
      (c_interrupted (crit st') = c_interrupted (crit st) \/ holds t0 = true /\ holds t' = false)) as HA.
    { intros q. destruct (access eqb q (q_table st)) as [[p' T']|]; [|discriminate]. intros [= <-]. exists t. eexists. split; [reflexivity|]. split; [left; reflexivity|]. split; [discriminate|auto]. }
    destruct p eqn:Ep; cbv iota in H; unfold compile_step, goto in H; try exact (HA _ H); try (apply (HA p); rewrite Ep; exact H).
    destruct (locked cfg st) eqn:Hl; [discriminate|]. destruct (maybe_update_best cfg (k_c (q_crit st)) a) as [c'|] eqn:E; cbn [obind] in H; [|discriminate]. injection H as <-. destruct (update_keeps _ _ _ _ _ E).
    exists t. eexists. split; [reflexivity|]. split; [left; reflexivity|]. split; [auto|left; cbn [q_crit with_c k_c]; auto].
  - injection H as <-. exists t. eexists. split; [reflexivity|]. split; [left; reflexivity|]. split; [auto|left; cbn [q_crit with_c k_c]; auto].
  - assert (forall q, match access eqb q (q_table st) with None => BPanic | Some (p', T') => BNext (mk_bst (q_crit st) T' (put i (mk_bth (BRelaxing n k p') (u_dd t)) (q_threads st))) end = BNext st' -> exists t0 t', Some t = Some t0 /\
      (q_threads st' = put i t' (q_threads st) \/ q_threads st' = map bwake (put i t' (q_threads st))) /\ (holds t' = true -> holds t0 = true \/ locked cfg st = false) /\
      (c_interrupted (crit st') = c_interrupted (crit st) \/ holds t0 = true /\ holds t' = false)) as HA.
    { intros q. destruct (access eqb q (q_table st)) as [[p' T']|]; [|discriminate]. intros [= <-]. exists t. eexists. split; [reflexivity|]. split; [left; reflexivity|]. split; [discriminate|auto]. }
    destruct p eqn:Ep; cbv iota in H; unfold compile_step, goto in H; try exact (HA _ H); try (apply (HA p); rewrite Ep; exact H).
    destruct (locked cfg st) eqn:Hl; [discriminate|]. destruct (g_exact a).
    + destruct (maybe_update_best cfg (k_c (q_crit st)) a) as [c'|] eqn:E; cbn [obind] in H; [|discriminate]. injection H as <-. destruct (update_keeps _ _ _ _ _ E).
      exists t. eexists. split; [reflexivity|]. split; [left; reflexivity|]. split; [auto|left; cbn [q_crit with_c k_c]; auto].
    + destruct (benqueue_cutset cfg (q_crit st) a (sp_ub n)) as [[k' d'']|] eqn:E; cbn [obind] in H; [|discriminate]. injection H as <-. destruct (benqueue_keeps _ _ _ _ _ E).
      exists t. eexists. split; [reflexivity|]. split; [left; reflexivity|]. split; [auto|left; cbn [q_crit with_c k_c]; auto].
  - destruct (bfinish_node cfg (q_crit st) i depth k) as [k'|] eqn:E; [|discriminate]. injection H as <-. destruct (bfinish_keeps _ _ _ _ _ E).
    exists t. eexists. split; [reflexivity|]. split; [right; reflexivity|]. split; [auto|left; cbn [q_crit]; auto].
Qed.

Lemma tally_none {A} (f : A -> bool) l : tally f l = 0%nat -> forall t, In t l -> f t = false.
Proof. induction l as [|a l IH]; intros H t Hin; [destruct Hin|]. rewrite tally_cons in H. destruct (f a) eqn:E; [lia|]. destruct Hin as [<-|Hin]; [exact E|]. apply IH; [lia|exact Hin]. Qed.
Lemma step_lock orc intr i st st' : Lock st -> bthread_step eqb cfg orc intr i st = BNext st' -> Lock st'.
Proof.
  intros [H1 H2] Hs. destruct (bstep_how _ _ _ _ _ Hs) as (t & t' & Ht & Hput & Hh & Hi). pose proof (tally_put (@holds S) i t' _ _ Ht) as HT.
  assert (tally (@holds S) (q_threads st') = tally (@holds S) (put i t' (q_threads st))) as E by (destruct Hput as [-> | ->]; [reflexivity|apply tally_map, bwake_holds]).
  assert (tally (@holds S) (put i t' (q_threads st)) <= 1)%nat as HL.
  { destruct (holds t') eqn:Et'; [|destruct (holds t); lia]. destruct (Hh eq_refl) as [Hh'|Hh']; [rewrite Hh' in HT; lia|]. apply tally_exists in Hh'. destruct (holds t); lia. }
  split; [lia|]. intros Ha'. destruct (c_interrupted (crit st)) eqn:Ea.
  - apply (bstep_kept orc intr i st st' (H2 eq_refl) Hs).
  - destruct Hi as [Hi|[Hi1 Hi2]]; [congruence|]. split; [exact Ha'|]. intros t0 Hin. rewrite Hi1, Hi2 in HT.
    assert (tally (@holds S) (q_threads st') = 0%nat) as E0 by lia. pose proof (trying_holds S (q_threads st')) as Hl. apply (tally_none trying (q_threads st')); [lia|exact Hin].
Qed.
Lemma spurious_lock st st' : Lock st -> bspurious S cfg st st' -> Lock st'.
Proof.
  intros [H1 H2] Hs. pose proof Hs as (i & d & Ht & ->). pose proof (tally_put (@holds S) i (mk_bth BIdle d) _ _ Ht) as HT. cbn [holds u_pc] in HT. split; cbn [q_threads q_crit]; [lia|].
  intros Ha. apply (bspurious_kept st); [exact (H2 Ha)|exact Hs].
Qed.
Lemma reach_lock n m st : breachable S eqb cfg n m st -> Lock st.
Proof.
  intros (st0 & Hi & H). assert (Lock st0) as H0.
  { unfold binitial, obind in Hi. destruct (fr_push _ _ _); [|discriminate]. destruct (upd _ 0 1%nat); [|discriminate]. injection Hi as <-. split; cbn [q_threads q_crit k_c c_interrupted]; [|discriminate].
    assert (tally (@holds S) (repeat (mk_bth BIdle (dd_new (cf_ctype cfg))) m) = 0%nat) as ->; [|lia]. clear. induction m as [|k IH]; [reflexivity|]. cbn [repeat]. rewrite tally_cons, IH. reflexivity. }
  clear Hi. induction H as [st|st st' st'' _ IH [(orc & intr & i & _ & Hs)|Hs]]; [exact H0| |].
  - exact (step_lock _ _ _ _ _ (IH H0) Hs).
  - exact (spurious_lock _ _ (IH H0) Hs).
Qed.
Lemma qexec_obeys n m st d st' : breachable S eqb cfg n m st -> c_interrupted (crit st) = true -> qexec S eqb cfg d st st' ->
  c_interrupted (crit st') = true /\ c_explored (crit st') = c_explored (crit st) /\ (d <= 2 * length (filter (bin_charge S) (q_threads st)))%nat.
Proof.
  intros Hr Ha H. destruct (reach_lock _ _ _ Hr) as [_ HL]. destruct (qexec_kept st d st' (HL Ha) H) as ([K1 _] & K2 & K3). split; [exact K1|]. split; [exact K2|].
  pose proof (sums_tally bdiagrams_left 2 (bin_charge S) (q_threads st)) as B. assert (forall a, (bdiagrams_left a <= if bin_charge S a then 2 else 0)%nat) as B' by (intros [[] ?]; cbn; lia). specialize (B B').
  unfold tally in B. lia.
Qed.
Lemma basked_stops orc i st st' t : nth_error (q_threads st) i = Some t -> u_pc t = BClean -> clean_turn cfg (q_crit st) (q_table st) = Some None ->
  bthread_step eqb cfg orc true i st = BNext st' ->
  (exists t', nth_error (q_threads st') i = Some t' /\ u_pc t' = BDone) /\ c_explored (crit st') = c_explored (crit st) /\
  (c_interrupted (crit st') = true \/ c_ongoing (crit st) = 0%nat /\ fr_empty (cf_fr cfg) (c_fringe (crit st)) = true).
Proof.
  intros Ht Hp Hc. unfold bthread_step. rewrite Ht, Hp, Hc. unfold decide, goto.
  destruct (Nat.eqb _ 0 && _) eqn:E.
  - intros [= <-]. cbn [q_threads q_crit]. split; [exists (mk_bth BDone (u_dd t)); split; [exact (put_at i _ _ _ Ht)|reflexivity]|]. split; [reflexivity|].
    right. apply andb_prop in E. destruct E as [E1 E2]. apply Nat.eqb_eq in E1. auto.
  - destruct (c_interrupted (crit st)) eqn:Ei.
    + intros [= <-]. cbn [q_threads q_crit]. split; [exists (mk_bth BDone (u_dd t)); split; [exact (put_at i _ _ _ Ht)|reflexivity]|]. auto.
    + destruct (if (0 <? c_ongoing (crit st))%nat then _ else _) as [[u f]|]; [|discriminate]. cbn [obind]. intros [= <-]. cbn [q_threads q_crit with_c k_c c_explored c_interrupted].
      split; [exists (mk_bth BDone (u_dd t)); split; [exact (put_at i _ _ _ Ht)|reflexivity]|]. auto.
Qed.

(** [interrupt()] always answers yes. *)
Variables (merging : Prop) (inv : fr_t (cf_fr cfg) -> Prop) (content : fr_t (cf_fr cfg) -> list (subproblem S)).
Hypothesis F : frontier_ok merging (cf_fr cfg) inv content.
Variables n m : nat.
Definition bout (t : bthread S) : bool := match u_pc t with BDone => true | _ => false end.
Record BRefused (st : bstate) : Prop := {
  br_len : length (q_threads st) = m;
  br_pc : forall t, In t (q_threads st) -> u_pc t = BIdle \/ u_pc t = BClean \/ u_pc t = BDone;
  br_o : c_ongoing (crit st) = 0%nat;
  br_e : c_explored (crit st) = 0%nat;
  br_lb : c_lb (crit st) = IMIN;
  br_sol : c_sol (crit st) = None;
  br_inv : inv (c_fringe (crit st));
  br_how : match tally bout (q_threads st) with
           | 0 => c_interrupted (crit st) = false /\ c_ub (crit st) = IMAX /\ content (c_fringe (crit st)) = [root_node cfg]
           | 1 => c_interrupted (crit st) = true /\ c_ub (crit st) = IMAX /\ content (c_fringe (crit st)) = []
           | _ => c_interrupted (crit st) = true /\ c_ub (crit st) = IMIN /\ content (c_fringe (crit st)) = []
           end%nat }.
Lemma same_refused st i t k T d : BRefused st -> nth_error (q_threads st) i = Some t -> bout t = false -> k_c k = crit st ->
  BRefused (mk_bst k T (put i (mk_bth BClean d) (q_threads st))).
Proof.
  intros R Ht Ho Hk. pose proof (tally_put bout i (mk_bth BClean d) _ _ Ht) as HT. rewrite Ho in HT. cbn [bout u_pc] in HT.
  constructor; cbn [q_threads q_crit]; rewrite ?Hk; try apply R.
  - rewrite put_length. apply R.
  - intros t0 Hin. apply bin_put in Hin. destruct Hin as [->|Hin]; [auto|apply (br_pc _ R); exact Hin].
  - replace (tally bout (put i _ _)) with (tally bout (q_threads st)) by lia. apply R.
Qed.
Lemma brefused_inv st : brefused S eqb cfg n m st -> BRefused st.
Proof.
  intros H. induction H as [st H|st st' orc i _ IH Ho Hs|st st' _ IH (i & d & Ht & _)].
  - unfold binitial, obind in H. destruct (fr_push _ _ _) as [f|] eqn:E; [|discriminate]. destruct (upd _ 0 1%nat); [|discriminate]. injection H as <-. destruct (first_content _ _ _ _ _ F f E) as [F1 F2].
    constructor; cbn [q_threads q_crit k_c c_ongoing c_explored c_lb c_sol c_fringe c_interrupted c_ub]; auto.
    + apply repeat_length.
    + intros t Hin. apply repeat_spec in Hin. subst t. auto.
    + assert (tally bout (repeat (mk_bth BIdle (dd_new (cf_ctype cfg))) m) = 0%nat) as ->; [|auto]. clear. induction m as [|k IH]; [reflexivity|]. cbn [repeat]. rewrite tally_cons, IH. reflexivity.
  - unfold bthread_step in Hs. destruct (nth_error (q_threads st) i) as [t|] eqn:Ht; [|discriminate].
    destruct (br_pc _ IH t (nth_error_In _ _ Ht)) as [Hp|[Hp|Hp]]; rewrite Hp in Hs; [| |discriminate]; unfold goto in Hs; assert (bout t = false) as Hot by (unfold bout; rewrite Hp; reflexivity).
    { destruct (locked cfg st); [discriminate|]. injection Hs as <-. apply (same_refused st i t); auto. }
    destruct (clean_turn cfg (q_crit st) (q_table st)) as [[[k' T']|]|] eqn:Ec; [| |discriminate].
    { injection Hs as <-. apply (same_refused st i t); auto. exact (clean_keeps _ _ _ _ Ec). }
    destruct (decide cfg (q_crit st) true) as [[k' p]|] eqn:E; [|discriminate]. injection Hs as <-.
    pose proof (tally_put bout i (mk_bth BDone (u_dd t)) _ _ Ht) as HT. rewrite Hot in HT. cbn [bout u_pc] in HT.
    assert (forall t0, In t0 (put i (mk_bth BDone (u_dd t)) (q_threads st)) -> u_pc t0 = BIdle \/ u_pc t0 = BClean \/ u_pc t0 = BDone) as HP.
    { intros t0 Hin. apply bin_put in Hin. destruct Hin as [->|Hin]; [auto|apply (br_pc _ IH); exact Hin]. }
    unfold decide in E. rewrite (br_o _ IH) in E. cbn [Nat.eqb andb Nat.ltb Nat.leb] in E. pose proof (br_how _ IH) as Hh.
    destruct (tally bout (q_threads st)) as [|[|x]].
    + destruct Hh as (H1 & H2 & H3). destruct (fr_empty (cf_fr cfg) (c_fringe (crit st))) eqn:Ee; [apply (fo_empty _ _ _ _ F _ (br_inv _ IH)) in Ee; congruence|].
      rewrite H1 in E. destruct (fo_pop _ _ _ _ F _ (br_inv _ IH) ltac:(congruence)) as (q & f' & Hpop & Hi & Hperm & _). rewrite Hpop in E. cbn [obind] in E. injection E as <- <-.
      rewrite H3 in Hperm. apply Permutation_length_1_inv in Hperm. injection Hperm as Hp' Hc'. subst q. destruct (fo_clear _ _ _ _ F _ Hi) as [C1 C2].
      constructor; cbn [q_threads q_crit with_c k_c c_ongoing c_explored c_lb c_sol c_fringe c_interrupted c_ub]; try apply IH; auto; [rewrite put_length; apply IH|].
      replace (tally bout (put i _ _)) with 1%nat by lia. auto.
    + destruct Hh as (H1 & H2 & H3). rewrite (proj2 (fo_empty _ _ _ _ F _ (br_inv _ IH)) H3) in E. injection E as <- <-.
      constructor; cbn [q_threads q_crit with_c with_ubound k_c c_ongoing c_explored c_lb c_sol c_fringe c_interrupted c_ub]; try apply IH; auto; [rewrite put_length; apply IH|].
      replace (tally bout (put i _ _)) with 2%nat by lia. rewrite (br_lb _ IH). auto.
    + destruct Hh as (H1 & H2 & H3). rewrite (proj2 (fo_empty _ _ _ _ F _ (br_inv _ IH)) H3) in E. injection E as <- <-.
      constructor; cbn [q_threads q_crit with_c with_ubound k_c c_ongoing c_explored c_lb c_sol c_fringe c_interrupted c_ub]; try apply IH; auto; [rewrite put_length; apply IH|].
      replace (tally bout (put i _ _)) with (Datatypes.S (Datatypes.S (Datatypes.S x))) by lia. rewrite (br_lb _ IH). auto.
  - destruct (br_pc _ IH _ (nth_error_In _ _ Ht)) as [Hx|[Hx|Hx]]; discriminate.
Qed.
Lemma ball_out st : ball_done cfg st -> tally bout (q_threads st) = length (q_threads st).
Proof.
  unfold ball_done. generalize (q_threads st). intros l. induction l as [|a l IH]; intros H; [reflexivity|]. rewrite tally_cons. cbn [length]. rewrite IH by (intros t Ht; apply H; right; exact Ht).
  unfold bout. rewrite (H a (or_introl eq_refl)). reflexivity.
Qed.
Lemma brefused_end st : (1 <= m)%nat -> brefused S eqb cfg n m st ->
  c_explored (crit st) = 0%nat /\ bbest_value cfg st = None /\
  (ball_done cfg st -> binterrupted cfg st /\ blower_bound cfg st = IMIN /\ bupper_bound cfg st = if (m =? 1)%nat then IMAX else IMIN).
Proof.
  intros Hm H. pose proof (brefused_inv st H) as R. split; [apply R|]. split; [unfold bbest_value; rewrite (br_sol _ R); reflexivity|]. intros Hd.
  pose proof (br_how _ R) as Hh. rewrite (ball_out st Hd), (br_len _ R) in Hh. unfold binterrupted, blower_bound, bupper_bound. rewrite (br_lb _ R).
  destruct m as [|[|k]]; [lia| |]; destruct Hh as (H1 & H2 & H3); cbn [Nat.eqb]; auto.
Qed.
End Bar.
