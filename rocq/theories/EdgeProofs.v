(** Proofs about the number of edges of a diagram: one for each value of each expanded node, and in a relaxed diagram one copy of each
    edge into a merged node at the most. *)
From Verif Require Import Spec Dd DdSpec MddAll MddBarrier MddBarrierSpec SizeSpec DdCount DdCountMdd SizeProofs SizeSolvers.
From Coq Require Import Lia ZArith List Permutation.
Import ListNotations.
Open Scope nat_scope.

Section Edges.
Variable S : Type.
Variable eqb : S -> S -> bool.
Variable inp : input S.
Variable orc : oracle S.
Variable P : problem S.
Variable R : relaxation S.
Variable at_depth : nat -> S -> Prop.
Variable nv : nat -> nat.
Variable D : nat.
Hypothesis Hiter : forall i l, Permutation l (o_iter orc i l).
Hypothesis Hsort : forall cmp l, Permutation l (o_sort orc cmp l).
Hypothesis Hwf : wf_problem S P at_depth nv.
Hypothesis Hrel : relaxation_depth S P at_depth R.
Hypothesis HD : domains_within S P at_depth nv D.
Notation dd := (dd S).
Notation node := (node S).
Notation N := (pb_nb_vars P).
Notation pw := (pw S).
Notation nextids := (nextids S).
Notation layer := (layer S at_depth).
Notation upto := (upto S inp at_depth D).

(** The list of edges that starts with edge [e] has [k] elements. *)
Inductive chain (es : list edge) : option nat -> nat -> Prop :=
| ch_nil : chain es None 0
| ch_cons e ed k : nth_error es e = Some ed -> chain es (e_next ed) k -> chain es (Some e) (Datatypes.S k).
(** The lists of inbound edges of the listed nodes have [w] elements altogether. *)
Inductive weighs (d : dd) : list nat -> nat -> Prop :=
| we_nil : weighs d [] 0
| we_cons i n k l w : get_node d i = Some n -> chain (g_edges d) (n_inbound n) k -> weighs d l w -> weighs d (i :: l) (k + w).

Lemma chain_app es t e k : chain es e k -> chain (es ++ t) e k.
Proof. induction 1; [constructor|]. econstructor; [|eassumption]. rewrite nth_error_app1; [assumption|]. apply nth_error_Some. congruence. Qed.

(** Old nodes but [m] keep their lists of inbound edges. *)
Definition kept (m : option nat) (d d' : dd) : Prop :=
  (forall i n, m <> Some i -> get_node d i = Some n -> exists n', get_node d' i = Some n' /\ n_inbound n' = n_inbound n) /\ exists t, g_edges d' = g_edges d ++ t.
Definition still (d d' : dd) : Prop := kept None d d' /\ g_edges d' = g_edges d.
Lemma kept_refl m d : kept m d d.
Proof. split; [eauto|]. exists []. rewrite app_nil_r. reflexivity. Qed.
Lemma kept_trans m x y z : kept m x y -> kept m y z -> kept m x z.
Proof.
  intros [A (t & E)] [B (u & F)]. split; [|exists (t ++ u); rewrite F, E, app_assoc; reflexivity]. intros i n Hm Hn.
  destruct (A i n Hm Hn) as (n1 & H1 & E1). destruct (B i n1 Hm H1) as (n2 & H2 & E2). exists n2. split; congruence.
Qed.
Lemma kept_none m x y : kept None x y -> kept m x y.
Proof. intros [A B]. split; [|exact B]. intros i n _. apply A. discriminate. Qed.
Lemma still_refl d : still d d.
Proof. split; [apply kept_refl|reflexivity]. Qed.
Lemma still_trans x y z : still x y -> still y z -> still x z.
Proof. intros [A E] [B F]. split; [eapply kept_trans; eauto|congruence]. Qed.
Lemma still_same (d d' : dd) : g_nodes d' = g_nodes d -> g_edges d' = g_edges d -> still d d'.
Proof. intros A B. split; [|exact B]. split; [|exists []; rewrite app_nil_r; exact B]. intros i n _ Hn. exists n. split; [|reflexivity]. unfold get_node in *. rewrite A. exact Hn. Qed.
Definition tame (f : node -> node) : Prop := forall n, n_inbound (f n) = n_inbound n.
Ltac tame := intros ?; repeat match goal with |- context [if ?b then _ else _] => destruct b end; reflexivity.
Lemma still_upd (d : dd) id f d' : upd_node d id f = Some d' -> tame f -> still d d'.
Proof.
  intros H Hf. destruct (upd_node_spec _ _ _ _ _ H) as (n & Hn & Hg & H1 & H2 & H3 & H4). split; [|exact H2]. split; [|exists []; rewrite app_nil_r; exact H2].
  intros i m _ Hm. rewrite Hg. destruct (Nat.eqb_spec i id) as [->|_]; [|eauto]. exists (f n). split; [reflexivity|]. rewrite Hf. congruence.
Qed.
Lemma kept_upd (d : dd) id f d' : upd_node d id f = Some d' -> kept (Some id) d d' /\ g_edges d' = g_edges d.
Proof.
  intros H. destruct (upd_node_spec _ _ _ _ _ H) as (n & Hn & Hg & H1 & H2 & H3 & H4). split; [|exact H2]. split; [|exists []; rewrite app_nil_r; exact H2].
  intros i m Hm Hi. rewrite Hg. destruct (Nat.eqb_spec i id) as [->|_]; [congruence|eauto].
Qed.
Lemma still_ofold {A} (f : dd -> A -> option dd) : (forall d a d', f d a = Some d' -> still d d') -> forall l d d', ofold f l d = Some d' -> still d d'.
Proof.
  intros Hf. induction l as [|a t IH]; cbn [ofold]; intros d d' H; [injection H as <-; apply still_refl|].
  destruct (f d a) as [d1|] eqn:E; cbn [obind] in H; [|discriminate]. eapply still_trans; [eapply Hf; exact E|eapply IH; exact H].
Qed.
Lemma weighs_kept m d d' l w : kept m d d' -> (forall i, In i l -> m <> Some i) -> weighs d l w -> weighs d' l w.
Proof.
  intros [A (t & E)] Hm H. induction H as [|i n k l w Hn Hc Hw IH]; [constructor|]. destruct (A i n (Hm i (or_introl eq_refl)) Hn) as (n' & H1 & H2).
  econstructor; [exact H1| |apply IH; intros j Hj; apply Hm; right; exact Hj]. rewrite H2, E. apply chain_app, Hc.
Qed.
Lemma weighs_still d d' l w : still d d' -> weighs d l w -> weighs d' l w.
Proof. intros [K _]. eapply weighs_kept; [exact K|]. discriminate. Qed.
Lemma weighs_perm d l l' : Permutation l l' -> forall w, weighs d l w -> weighs d l' w.
Proof.
  induction 1; intros w Hw; auto.
  - inversion Hw; subst. econstructor; eauto.
  - inversion Hw as [|? ? a ? ? ? ? Hw']; subst. inversion Hw' as [|? ? b ? v]; subst. replace (a + (b + v)) with (b + (a + v)) by lia. repeat (econstructor; eauto).
Qed.
Lemma weighs_skip d k : forall l w, weighs d l w -> exists w', weighs d (skipn k l) w' /\ w' <= w.
Proof.
  induction k as [|k IH]; intros l w H; [exists w; split; [exact H|lia]|]. destruct H as [|i n a l w Hn Hc Hw]; [exists 0; split; [constructor|lia]|].
  destruct (IH l w Hw) as (w' & H1 & H2). exists w'. split; [exact H1|lia].
Qed.

(** * Reducing a layer *)
Lemma mark_still v (d : dd) id d' : mark_cutset v d id = Some d' -> still d d'.
Proof.
  unfold mark_cutset. destruct (upd_node d id _) as [d1|] eqn:E; cbn [obind]; [|discriminate]. destruct (get_node d1 id); cbn [obind]; [|discriminate].
  intros H. injection H as <-. eapply still_trans; [eapply still_upd; [exact E|tame]|apply still_same; reflexivity].
Qed.
Lemma redirect_adds rx merged mid dropped : forall fuel (d : dd) e d' k, redirect fuel rx merged mid dropped d e = Some d' -> chain (g_edges d) e k ->
  kept (Some mid) d d' /\ length (g_edges d') = length (g_edges d) + k.
Proof.
  induction fuel as [|f IH]; intros d [eid|] d' k; cbn [redirect]; try discriminate; try (intros H Hc; injection H as <-; inversion Hc; subst; split; [apply kept_refl|lia]).
  destruct (nth_error _ eid) as [ed|] eqn:Ee; cbn [obind]; [|discriminate]. destruct (get_node d (e_from ed)); cbn [obind]; [|discriminate].
  destruct (get_node d mid) as [m|]; cbn [obind]; [|discriminate]. destruct (upd_node _ mid _) as [d2|] eqn:E2; cbn [obind]; [|discriminate].
  destruct (get_node d2 (e_from ed)); cbn [obind]; [|discriminate]. destruct (get_node d2 mid) as [m2|]; cbn [obind]; [|discriminate].
  match goal with |- context [obind ?x _] => destruct x as [d3|] eqn:E3 end; cbn [obind]; [|discriminate].
  intros H Hc. inversion Hc as [|? ed' k' He Hk]; subst. assert (ed' = ed) by congruence. subst ed'.
  destruct (kept_upd _ _ _ _ E2) as [K2 F2]. cbn in F2.
  assert (K3 : kept (Some mid) d2 d3 /\ g_edges d3 = g_edges d2). { destruct (_ <=? _)%Z; [eapply kept_upd; exact E3|injection E3 as <-; split; [apply kept_refl|reflexivity]]. }
  destruct K3 as [K3 F3]. set (x := mk_edge _ _ _ _) in *. assert (F : g_edges d3 = g_edges d ++ [x]) by congruence.
  destruct (IH d3 (e_next ed) d' k' H) as [K4 L4]; [rewrite F; apply chain_app, Hk|].
  split.
  - eapply kept_trans; [|eapply kept_trans; [exact K2|eapply kept_trans; [exact K3|exact K4]]]. split; [intros i y _ Hy; exists y; split; [exact Hy|reflexivity]|]. exists [x]. reflexivity.
  - rewrite L4, F, app_length. cbn. lia.
Qed.
Lemma drop_adds v rx merged mid (d : dd) id d' w : drop_node v rx merged mid d id = Some d' -> weighs d [id] w -> kept (Some mid) d d' /\ length (g_edges d') = length (g_edges d) + w.
Proof.
  unfold drop_node. match goal with |- context [obind ?x _] => destruct x as [d1|] eqn:E1 end; cbn [obind]; [|discriminate].
  destruct (get_node d1 id) as [n|] eqn:En; cbn [obind]; [|discriminate]. intros H Hw.
  assert (K : still d d1). { destruct v; [injection E1 as <-; apply still_refl|eapply still_upd; [exact E1|tame]]. }
  apply (weighs_still _ _ _ _ K) in Hw. inversion Hw as [|? n' k ? z Hn Hc Hz]; subst. inversion Hz; subst. assert (n' = n) by congruence. subst n'.
  destruct (redirect_adds _ _ _ _ _ _ _ _ _ H Hc) as [K2 L2]. destruct K as [K F]. split; [eapply kept_trans; [apply kept_none, K|exact K2]|]. rewrite L2, F. lia.
Qed.
Lemma drops_add v rx merged mid : forall l (d : dd) d' w, ~ In mid l -> weighs d l w -> ofold (drop_node v rx merged mid) l d = Some d' -> length (g_edges d') = length (g_edges d) + w.
Proof.
  induction l as [|id t IH]; cbn [ofold]; intros d d' w Hm Hw H; [injection H as <-; inversion Hw; lia|].
  destruct (drop_node _ _ _ _ d id) as [d1|] eqn:E; cbn [obind] in H; [|discriminate]. inversion Hw as [|? n k ? z Hn Hc Hz]; subst.
  destruct (drop_adds _ _ _ _ _ _ _ (k + 0) E) as [K L]; [econstructor; [exact Hn|exact Hc|constructor]|].
  rewrite (IH d1 d' z); [lia|intros Hi; apply Hm; right; exact Hi| |exact H]. eapply weighs_kept; [exact K| |exact Hz]. intros i Hi E2. injection E2 as <-. apply Hm. right. exact Hi.
Qed.
Lemma weighs_present d l w : weighs d l w -> forall i, In i l -> i < length (g_nodes d).
Proof. induction 1 as [|i n k l w Hn Hc Hw IH]; intros j Hj; [destruct Hj|]. destruct Hj as [<-|Hj]; [|auto]. apply nth_error_Some. unfold get_node in Hn. congruence. Qed.
Lemma nodup_apart {A} (a b : list A) x : NoDup (a ++ b) -> In x a -> ~ In x b.
Proof.
  induction a as [|y a IH]; cbn; intros Nd Ha Hb; [destruct Ha|]. inversion Nd as [|? ? Hy Nd']; subst. destruct Ha as [->|Ha]; [apply Hy, in_or_app; right; exact Hb|apply IH; auto].
Qed.
Lemma find_in {A} (f : A -> bool) l x : find f l = Some x -> In x l.
Proof. intros H. apply find_some in H. apply H. Qed.
Lemma relax_adds v (d : dd) curr d' curr' w : NoDup curr -> weighs d curr w -> relax eqb v orc inp d curr = Some (d', curr') -> length (g_edges d') <= length (g_edges d) + w.
Proof.
  intros Hnd Hw. unfold relax. match goal with |- context [obind ?x _] => destruct x as [d1|] eqn:E1 end; cbn [obind]; [|discriminate].
  assert (G1 : still d d1).
  { destruct (g_ctype d); [|injection E1 as <-; apply still_refl]. destruct (negb _); [|injection E1 as <-; apply still_refl]. eapply still_ofold; [|exact E1]. intros. eapply mark_still; eassumption. }
  destruct (all_present d1 curr); [|discriminate]. set (d2 := set_approx d1 true). assert (G2 : still d d2) by (eapply still_trans; [exact G1|apply still_same; reflexivity]).
  set (sorted := o_sort orc _ curr). assert (Ps : Permutation curr sorted) by apply Hsort. clearbody sorted.
  assert (Nd : NoDup sorted) by (eapply Permutation_NoDup; [exact Ps|exact Hnd]). assert (Ws : weighs d2 sorted w) by (eapply weighs_perm; [exact Ps|]; eapply weighs_still; eauto).
  destruct (i_width inp) as [|w1] eqn:Ew; [discriminate|]. destruct (w1 <=? length sorted); [|discriminate].
  destruct (map_states d2 (firstn w1 sorted)) as [ks|]; cbn [obind]; [|discriminate]. destruct (map_states d2 (skipn w1 sorted)) as [ms|] eqn:Em; cbn [obind]; [|discriminate].
  set (merged := rx_merge (i_rx inp) ms) in *. clearbody merged.
  destruct (weighs_skip d2 w1 sorted w Ws) as (wm & Wm & Lm).
  set (rec := option_map fst _). assert (Hrec : forall i, rec = Some i -> In i (firstn w1 sorted)).
  { unfold rec. destruct (find _ _) as [[i s]|] eqn:Ef; cbn; [|discriminate]. intros j Hj. injection Hj as <-. apply find_in in Ef. eapply in_combine_l. exact Ef. }
  clearbody rec. destruct G2 as [_ F2].
  match goal with |- context [obind ?x _] => destruct x as [[mid d3]|] eqn:E3 end; cbn [obind]; [|discriminate].
  assert (K3 : still d2 d3 /\ ~ In mid (skipn w1 sorted)).
  { destruct rec as [rid|].
    - injection E3 as <- <-. split; [apply still_refl|]. intros Hi. rewrite <- (firstn_skipn w1 sorted) in Nd. apply (nodup_apart _ _ rid Nd); [apply Hrec; reflexivity|exact Hi].
    - match type of E3 with obind ?x _ = _ => destruct x as [dep|] end; cbn [obind] in E3; [|discriminate]. injection E3 as <- <-. split.
      + split; [|reflexivity]. split; [|exists []; rewrite app_nil_r; reflexivity]. intros i n _ Hn. exists n. split; [|reflexivity]. assert (Hl : i < length (g_nodes d2)) by (apply nth_error_Some; unfold get_node in Hn; rewrite Hn; discriminate). unfold get_node. cbn [set_nodes g_nodes]. rewrite nth_error_app1; [exact Hn|exact Hl].
      + intros Hi. apply (weighs_present _ _ _ Wm) in Hi. exact (Nat.lt_irrefl _ Hi). }
  destruct K3 as [K3 Hmid]. destruct (upd_node d3 mid _) as [d4|] eqn:E4; cbn [obind]; [|discriminate]. assert (K4 : still d2 d4) by (eapply still_trans; [exact K3|eapply still_upd; [exact E4|tame]]).
  destruct (ofold _ _ d4) as [d5|] eqn:E5; cbn [obind]; [|discriminate].
  pose proof (drops_add _ _ _ _ _ _ _ wm Hmid (weighs_still _ _ _ _ K4 Wm) E5) as L5. destruct K4 as [_ F4]. rewrite F4, F2 in L5.
  destruct rec as [rid|].
  - match goal with |- context [obind ?x _] => destruct x as [d6|] eqn:E6 end; cbn [obind]; [|discriminate]. intros H. pose proof (f_equal (fun o => match o with Some (x, _) => x | None => d6 end) H) as Hd. cbv beta iota in Hd. subst d'.
    assert (K6 : still d5 d6). { destruct v; [injection E6 as <-; apply still_refl|]. destruct (nth_error _ w1); cbn [obind] in E6; [|discriminate]. eapply still_upd; [exact E6|tame]. }
    destruct K6 as [_ F6]. rewrite F6. lia.
  - intros H. pose proof (f_equal (fun o => match o with Some (x, _) => x | None => d5 end) H) as Hd. cbv beta iota in Hd. subst d'. lia.
Qed.
Lemma restrict_adds (d : dd) curr d' curr' : restrict orc inp d curr = Some (d', curr') -> g_edges d' = g_edges d.
Proof. unfold restrict. destruct (all_present d curr); [|discriminate]. intros H. pose proof (f_equal (fun o => match o with Some (x, _) => x | None => d end) H) as Hd. cbv beta iota in Hd. subst d'. reflexivity. Qed.

(** * Expanding a layer *)
(** All the edges but the first [b] are inbound edges of the next layer. *)
Definition has (b w : nat) (d : dd) : Prop := NoDup (nextids d) /\ weighs d (nextids d) w /\ length (g_edges d) = b + w.
Lemma has_still b w d d' : still d d' -> g_next d' = g_next d -> has b w d -> has b w d'.
Proof. intros K E (A & B & C0). unfold has. replace (nextids d') with (nextids d) by (unfold DdCount.nextids; rewrite E; reflexivity). split; [exact A|]. split; [eapply weighs_still; eauto|]. destruct K as [_ F]. rewrite F. exact C0. Qed.
Lemma next_get_in (m : list (S * nat)) s i : next_get eqb m s = Some i -> In i (map snd m).
Proof.
  induction m as [|[s' j] t IH]; cbn; [discriminate|]. destruct (eqb _ _); intros H; [injection H as <-; left; reflexivity|right; apply IH, H].
Qed.
Lemma weighs_bump (d d' : dd) tid e ed n n' : get_node d tid = Some n -> g_edges d' = g_edges d ++ [ed] -> e = length (g_edges d) -> e_next ed = n_inbound n ->
  (forall j, get_node d' j = if Nat.eqb j tid then Some n' else get_node d j) -> n_inbound n' = Some e ->
  forall l w, NoDup l -> weighs d l w -> weighs d' l w /\ ~ In tid l \/ weighs d' l (Datatypes.S w) /\ In tid l.
Proof.
  intros Hn Fe He Hx Hg Hi l w Nd Hw. induction Hw as [|i m k l w Hm Hc Hw IH]; [left; split; [constructor|intros []]|].
  inversion Nd as [|? ? Hni Nd']; subst. destruct (Nat.eq_dec i tid) as [->|Hne].
  - right. split; [|left; reflexivity]. destruct (IH Nd') as [[H _]|[_ H]]; [|contradiction]. replace (Datatypes.S (k + w)) with (Datatypes.S k + w) by lia.
    econstructor; [rewrite Hg, Nat.eqb_refl; reflexivity| |exact H]. rewrite Hi, Fe. econstructor; [rewrite nth_error_app2, Nat.sub_diag by lia; reflexivity|].
    rewrite Hx. replace n with m by congruence. apply chain_app, Hc.
  - assert (Hgi : get_node d' i = Some m). { rewrite Hg. destruct (Nat.eqb_spec i tid); [contradiction|exact Hm]. }
    assert (Hc' : chain (g_edges d') (n_inbound m) k) by (rewrite Fe; apply chain_app, Hc).
    destruct (IH Nd') as [[H1 H2]|[H1 H2]].
    + left. split; [econstructor; eauto|]. intros [E|E]; [congruence|contradiction].
    + right. split; [|right; exact H2]. replace (Datatypes.S (k + w)) with (k + Datatypes.S w) by lia. econstructor; eauto.
Qed.
Lemma branch_has v from (d : dd) dec d' b w : has b w d -> branch_on eqb v P from d dec = Some d' -> has b (Datatypes.S w) d'.
Proof.
  intros (A & B & C0). unfold branch_on. destruct (get_node d from) as [n|] eqn:Hn; cbn [obind]; [|discriminate].
  destruct (next_get eqb (g_next d) _) as [tid|] eqn:Eg.
  - destruct (get_node d tid) as [nd|] eqn:Et; cbn [obind]; [|discriminate].
    match goal with |- context [obind (upd _ _ ?x) _] => set (nd2 := x); destruct (upd (g_nodes d) tid nd2) as [ns|] eqn:Eu end; cbn [obind]; [|discriminate].
    intros H. injection H as <-. destruct (upd_spec _ _ _ _ Eu) as [Le Ng]. set (ed := mk_edge _ _ _ _).
    set (d' := set_nodes _ ns).
    assert (I2 : n_inbound nd2 = Some (length (g_edges d))). { unfold nd2. destruct v; cbn; repeat match goal with |- context [if ?b then _ else _] => destruct b end; reflexivity. }
    assert (Ix : e_next ed = n_inbound nd) by (destruct v; reflexivity).
    assert (Hg : forall j, get_node d' j = if Nat.eqb j tid then Some nd2 else get_node d j) by (intros j; unfold get_node; cbn; rewrite Ng; reflexivity).
    destruct (weighs_bump d d' tid _ ed nd nd2 Et eq_refl eq_refl Ix Hg I2 _ _ A B) as [[_ K]|[K _]]; [elim K; eapply next_get_in; exact Eg|].
    split; [exact A|]. split; [exact K|]. cbn. rewrite app_length. cbn. lia.
  - intros H. injection H as <-. set (nd := mk_node _ _ _ _ _ _ _ _ _). set (ed := mk_edge _ _ _ _). set (d' := set_next _ _).
    assert (K : kept None d d'). { split; [|exists [ed]; reflexivity]. intros i m _ Hm. exists m. split; [|reflexivity]. unfold get_node in *. cbn. rewrite nth_error_app1; [exact Hm|]. apply nth_error_Some. congruence. }
    change (nextids d') with (length (g_nodes d) :: nextids d). split; [|split].
    + change (nextids d') with (length (g_nodes d) :: nextids d). constructor; [|exact A]. intros Hi. apply (weighs_present _ _ _ B) in Hi. lia.
    + change (nextids d') with (length (g_nodes d) :: nextids d). replace (Datatypes.S w) with (1 + w) by lia. econstructor.
      * unfold get_node. cbn. rewrite nth_error_app2, Nat.sub_diag by lia. reflexivity.
      * cbn. econstructor; [rewrite nth_error_app2, Nat.sub_diag by lia; reflexivity|]. constructor.
      * eapply weighs_kept; [exact K|discriminate|exact B].
    + cbn. rewrite app_length. cbn. lia.
Qed.
Lemma branches_has v from : forall l (d : dd) d' b w, has b w d -> ofold (branch_on eqb v P from) l d = Some d' -> has b (length l + w) d'.
Proof.
  induction l as [|dec t IH]; cbn [ofold]; intros d d' b w Hh H; [injection H as <-; exact Hh|].
  destruct (branch_on _ _ _ _ d dec) as [d1|] eqn:E; cbn [obind] in H; [|discriminate]. cbn [length]. replace (Datatypes.S (length t) + w) with (length t + Datatypes.S w) by lia.
  eapply IH; [eapply branch_has; eauto|exact H].
Qed.
(** with_barrier.rs: the nodes that are not pruned. *)
Lemma retain_edges depth : forall l (d : dd) w, NoDup l -> weighs d l w ->
  pw (retain depth d l) (fun r => still d (fst r) /\ incl (snd r) l /\ NoDup (snd r) /\ exists w', weighs (fst r) (snd r) w' /\ w' <= w).
Proof.
  induction l as [|id t IH]; cbn [retain]; intros d w Nd Hw; [cbn; split; [apply still_refl|split; [apply incl_refl|split; [constructor|exists 0; split; [constructor|lia]]]]|]. apply pw_bind.
  assert (H1 : pw (retain_node depth d id) (fun r => still d (fst r))).
  { unfold retain_node. apply pw_bind, pw_pure. intros n Hn. destruct (is_relaxed _); [cbn; apply still_refl|]. cbn. intros r. destruct (_ <? _)%Z; [cbn; apply still_refl|].
    apply pw_bind, pw_pure. intros d1 H1. cbn. eapply still_upd; [exact H1|tame]. }
  inversion Nd as [|? ? Hni Nd']; subst. inversion Hw as [|? n k ? z Hn Hc Hz]; subst.
  eapply pw_mono; [|exact H1]. cbn beta. intros [d1 b] K. cbn [fst] in K. apply pw_bind. eapply pw_mono; [|apply (IH d1 z Nd'); eapply weighs_still; eauto]. cbn beta. intros [d2 r] (K2 & I2 & N2 & w' & W2 & L2). cbn [fst snd] in *.
  pose proof (still_trans _ _ _ K K2) as K3. destruct b; cbn.
  - split; [exact K3|]. split; [apply incl_cons; [left; reflexivity|apply incl_tl, I2]|]. split; [constructor; [intros Hi; apply Hni, I2, Hi|exact N2]|].
    assert (H0 : weighs d [id] (k + 0)) by (econstructor; [exact Hn|exact Hc|constructor]). apply (weighs_still _ _ _ _ K3) in H0. inversion H0 as [|? n2 k2 ? z2 Hn2 Hc2 Hz2]; subst. inversion Hz2; subst.
    exists (k2 + w'). split; [econstructor; eauto|lia].
  - split; [exact K3|]. split; [apply incl_tl, I2|]. split; [exact N2|]. exists w'. split; [exact W2|lia].
Qed.
Lemma prune_edges rd depth (d : dd) l w : NoDup l -> weighs d l w ->
  pw (prune rd depth d l) (fun r => still d (fst r) /\ incl (snd r) l /\ NoDup (snd r) /\ exists w', weighs (fst r) (snd r) w' /\ w' <= w).
Proof.
  intros Nd Hw. assert (G : still d d /\ incl l l /\ NoDup l /\ exists w', weighs d l w' /\ w' <= w) by (split; [apply still_refl|split; [apply incl_refl|split; [exact Nd|exists w; split; [exact Hw|lia]]]]).
  unfold prune. destruct (_ <? _); [|exact G]. cbn. intros [|]; [exact G|]. apply retain_edges; assumption.
Qed.

Hypothesis Hpb : i_pb inp = P.
Hypothesis Hrx : i_rx inp = R.
(** [x] nodes had been expanded and [b] edges made before the layer. *)
Definition going (b x : nat) (d : dd) : Prop := exists w, has b w d /\ w + x * D <= g_explored d * D.
Lemma branches_expl v from : forall l (d : dd) d', ofold (branch_on eqb v P from) l d = Some d' -> g_explored d' = g_explored d.
Proof.
  induction l as [|dec t IH]; cbn [ofold]; intros d d' H; [injection H as <-; reflexivity|]. destruct (branch_on _ _ _ _ d dec) as [d1|] eqn:E; cbn [obind] in H; [|discriminate].
  rewrite (IH _ _ H). revert E. unfold branch_on. destruct (get_node d from); cbn [obind]; [|discriminate]. destruct (next_get _ _ _) as [tid|].
  - destruct (get_node d tid); cbn [obind]; [|discriminate]. destruct (upd _ tid _); cbn [obind]; [|discriminate]. intros E. injection E as <-. reflexivity.
  - intros E. injection E as <-. reflexivity.
Qed.
Lemma expand_going v k (d : dd) id d' b x : k < N -> layer k d [id] -> going b x d -> expand_node eqb v inp (nv k) d id = Some d' -> going b x d'.
Proof.
  intros Hk HL (w & Hh & Hw). unfold expand_node. destruct (HL id (or_introl eq_refl)) as (n & Hn & Ha). rewrite Hn. cbn [obind].
  destruct (upd_node d id _) as [d1|] eqn:E1; cbn [obind]; [|discriminate]. assert (K1 : still d d1) by (eapply still_upd; [exact E1|tame]).
  destruct (upd_node_spec _ _ _ _ _ E1) as (_ & _ & _ & _ & _ & X1 & X2). pose proof (has_still b w d d1 K1 X1 Hh) as H1.
  destruct (get_node d1 id) as [n1|] eqn:En1; cbn [obind]; [|discriminate]. destruct (_ <? _)%Z.
  - destruct (ofold _ _ d1) as [d2|] eqn:E2; cbn [obind]; [|discriminate]. intros H. injection H as <-. rewrite Hpb in E2. pose proof (branches_expl _ _ _ _ _ E2) as X3.
    pose proof (branches_has _ _ _ _ _ _ _ H1 E2) as (A & B & C0). pose proof (HD k (n_state n) Hk Ha) as Hd.
    exists (length (pb_domain P (nv k) (n_state n)) + w). split; [split; [exact A|]; split; [|exact C0]|cbn; nia].
    eapply weighs_still; [|exact B]. apply still_same; reflexivity.
  - destruct v; [intros H; injection H as <-; exists w; split; [exact H1|lia]|]. intros H. destruct (upd_node_spec _ _ _ _ _ H) as (_ & _ & _ & _ & _ & X3 & X4).
    exists w. split; [|lia]. eapply has_still; [eapply still_upd; [exact H|tame]|exact X3|exact H1].
Qed.
Lemma expands_going v k : k < N -> forall l (d : dd) d' b x, layer k d l -> going b x d -> ofold (expand_node eqb v inp (nv k)) l d = Some d' -> going b x d'.
Proof.
  intros Hk. induction l as [|id t IH]; cbn [ofold]; intros d d' b x HL Hg H; [injection H as <-; exact Hg|].
  destruct (expand_node _ _ _ _ d id) as [d1|] eqn:E; cbn [obind] in H; [|discriminate]. assert (HL1 : layer k d [id]) by (eapply layer_incl; [|exact HL]; intros i [<-|[]]; left; reflexivity).
  eapply IH; [|eapply expand_going; eauto|exact H]. eapply layer_step_to; [eapply expand_size; eauto|]. eapply layer_incl; [|exact HL]. intros i Hi. right. exact Hi.
Qed.

(** * The loop *)
Definition copies : nat := match i_type inp with Relaxed => 1 | _ => 0 end.
Definition edgy (d : dd) : Prop := exists w, NoDup (nextids d) /\ weighs d (nextids d) w /\ length (g_edges d) + copies * w <= (1 + copies) * (g_explored d * D).
Definition few (d : dd) : Prop := length (g_edges d) <= (1 + copies) * (g_explored d * D).
Lemma edgy_few d : edgy d -> few d.
Proof. intros (w & _ & _ & H). unfold few. lia. Qed.
Lemma going_edgy b x (d : dd) : b <= (1 + copies) * (x * D) -> going b x d -> edgy d.
Proof. intros Hb (w & (A & B & C0) & Hw). exists w. split; [exact A|]. split; [exact B|]. rewrite C0. unfold copies in *. destruct (i_type inp); lia. Qed.
Lemma going_start (d : dd) : g_next d = [] -> going (length (g_edges d)) (g_explored d) d.
Proof. intros E. exists 0. unfold has, DdCount.nextids. rewrite E. cbn [map]. split; [split; [constructor|split; [constructor|lia]]|lia]. Qed.
Lemma taken (d : dd) curr j : edgy d -> let l := map snd (o_iter orc j (g_next (set_prev d curr))) in
  exists w, NoDup l /\ weighs (set_next (set_prev d curr) []) l w /\ length (g_edges d) + copies * w <= (1 + copies) * (g_explored d * D).
Proof.
  intros (w & A & B & H) l. assert (Pl : Permutation (nextids d) l) by (unfold DdCount.nextids, l; apply Permutation_map, Hiter). exists w.
  split; [eapply Permutation_NoDup; eauto|]. split; [|exact H]. eapply weighs_perm; [exact Pl|]. eapply weighs_still; [|exact B]. apply still_same; reflexivity.
Qed.
(** After a layer was reduced the copies are within the allowance. *)
Lemma shrunk_going (d d2 d3 : dd) w : length (g_edges d2) + copies * w <= (1 + copies) * (g_explored d2 * D) -> g_explored d3 = g_explored d2 ->
  length (g_edges d3) <= length (g_edges d2) + copies * w -> length (g_edges d3) <= (1 + copies) * (g_explored d3 * D).
Proof. intros A E B. rewrite E. lia. Qed.
Lemma all_edge_turn k0 t (d : dd) curr d' c : i_type inp <> Exact -> upto k0 t d -> edgy d -> k0 + t < N -> MddAll.layer_step eqb orc inp t (nv (k0 + t)) d curr = Some (d', c) ->
  match c with None => few d' | Some _ => edgy d' end.
Proof.
  intros Hty U He Hk. unfold MddAll.layer_step. destruct (taken_layer S inp orc at_depth D Hiter k0 t d curr (3 * t + 1) U) as [HL Hlen]. destruct (taken d curr (3 * t + 1) He) as (w & Nd & Hw & Hb).
  set (d2 := set_next (set_prev d curr) []) in *. set (c1 := map snd _) in *.
  destruct c1 as [|c0 ct] eqn:Ec.
  - intros H. injection H as <- <-. apply edgy_few in He. exact He.
  - rewrite <- Ec in *. clear Ec. match goal with |- context [obind ?x _] => destruct x as [[d3 curr2]|] eqn:E3 end; cbn [obind]; [|discriminate].
    destruct (ofold _ curr2 d3) as [d4|] eqn:E4; cbn [obind]; [|discriminate]. intros H. injection H as <- <-.
    assert (G : g_next d3 = [] /\ g_explored d3 = g_explored d2 /\ layer (k0 + t) d3 curr2 /\ length (g_edges d3) <= length (g_edges d2) + copies * w).
    { assert (Hkeep : Some (d2, c1) = Some (d3, curr2) -> g_next d3 = [] /\ g_explored d3 = g_explored d2 /\ layer (k0 + t) d3 curr2 /\ length (g_edges d3) <= length (g_edges d2) + copies * w).
      { intros H. injection H as <- <-. split; [reflexivity|]. split; [reflexivity|]. split; [exact HL|lia]. }
      unfold copies in *. destruct (i_type inp) eqn:Et; [congruence| |].
      - destruct (i_width inp <? length c1) eqn:Ew; cbn [andb] in E3; [|apply Hkeep, E3]. apply Nat.ltb_lt in Ew. destruct (1 <? t); cbn [andb] in E3; [|apply Hkeep, E3].
        destruct (relax_size S eqb inp orc P R at_depth Hrx Hsort Hrel _ (k0 + t) d2 c1 d3 curr2 ltac:(lia) HL Ew E3) as ([_ _ G3 G4] & L3 & _).
        pose proof (relax_adds _ _ _ _ _ _ Nd Hw E3) as L. split; [rewrite G3; reflexivity|]. split; [exact G4|]. split; [exact L3|lia].
      - destruct (i_width inp <? length c1) eqn:Ew; [|apply Hkeep, E3]. destruct (restrict_size S inp orc at_depth Hsort (k0 + t) d2 c1 d3 curr2 HL E3) as ([_ _ G3 G4] & L3 & _).
        pose proof (restrict_adds _ _ _ _ E3) as L. split; [rewrite G3; reflexivity|]. split; [exact G4|]. split; [exact L3|rewrite L; lia]. }
    destruct G as (G1 & G2 & G3 & G4). eapply going_edgy; [eapply shrunk_going; [exact d|exact Hb|exact G2|exact G4]|]. eapply expands_going; [exact Hk|exact G3|apply going_start, G1|exact E4].
Qed.
Lemma all_edge_turns k0 : i_type inp <> Exact -> forall fuel t (d : dd) curr d' b, upto k0 t d -> edgy d -> k0 + t <= N -> MddAll.layers eqb fuel orc inp t d curr = Some (d', b) -> few d'.
Proof.
  intros Hty. induction fuel as [|f IH]; cbn [MddAll.layers]; intros t d curr d' b U He Hk; [discriminate|].
  destruct (pb_next_var _ _) as [var|] eqn:Ev; [|intros H; injection H as <- _; apply edgy_few, He].
  destruct (next_var_is S inp orc P at_depth nv D Hpb Hiter Hwf k0 t d _ var Hk U Ev) as [Hlt ->]. destruct (MddAll.layer_step _ _ _ _ _ _ _) as [[d1 c]|] eqn:E; cbn [obind]; [|discriminate].
  pose proof (all_turn S eqb inp orc P R at_depth nv D Hpb Hrx Hiter Hsort Hwf Hrel HD k0 t d curr d1 c Hty U Hlt E) as H1. pose proof (all_edge_turn k0 t d curr d1 c Hty U He Hlt E) as H2.
  destruct c as [curr1|]; [intros H; eapply IH; [exact H1|exact H2|lia|exact H]|]. intros H. injection H as <- _. exact H2.
Qed.
Lemma weighs_root (d : dd) n : get_node d 0 = Some n -> n_inbound n = None -> weighs d [0] 0.
Proof. intros H E. apply (we_cons d 0 n 0 [] 0 H); [rewrite E; constructor|constructor]. Qed.
Lemma root_edgy debug (d d0 : dd) : root_dd debug inp d = Some d0 -> edgy d0.
Proof.
  unfold root_dd. destruct (sub_isize _ _ _); cbn [obind]; [|discriminate]. intros H. injection H as <-. exists 0. split; [|split]; cbn.
  - constructor; [intros []|constructor].
  - eapply weighs_root; reflexivity.
  - lia.
Qed.
Lemma same_few d d' : same S d d' -> few d -> few d'.
Proof. intros (_ & A & B) H. unfold few in *. rewrite A, B. exact H. Qed.
Theorem all_few debug (d d' : dd) : i_type inp <> Exact -> at_depth (depth_of (i_res inp)) (sp_state (i_res inp)) -> depth_of (i_res inp) <= N ->
  MddAll.compile eqb debug orc inp d = Some d' -> few d'.
Proof.
  intros Hty Ha Hk. unfold MddAll.compile. destruct (root_dd _ _ _) as [d0|] eqn:E0; cbn [obind]; [|discriminate]. destruct (MddAll.layers _ _ _ _ _ _ _) as [[d1 r]|] eqn:E1; cbn [obind]; [|discriminate].
  destruct (root_upto S inp at_depth D debug _ d d0 Ha E0) as [U _]. pose proof (all_edge_turns _ Hty _ _ _ _ _ _ U (root_edgy _ _ _ E0) ltac:(lia) E1) as H1.
  destruct r; [intros H; injection H as <-; exact H1|]. intros H. eapply same_few; [eapply all_end_same; exact H|exact H1].
Qed.

(** * with_barrier.rs *)
Lemma expand_ones_going k depth : k < N -> forall l (d : dd) b x, layer k d l -> going b x d -> pw (pfold (expand_one eqb inp (nv k) depth) l d) (going b x).
Proof.
  intros Hk. induction l as [|id t IH]; cbn [pfold]; intros d b x HL Hg; [exact Hg|]. apply pw_bind.
  assert (G : pw (expand_one eqb inp (nv k) depth d id) (fun d1 => going b x d1 /\ layer k d1 t)).
  { unfold expand_one. apply pw_bind, pw_pure. intros n Hn. apply pw_bind, pw_pure. intros d1 E1. apply pw_bind, pw_pure. intros n1 Hn1.
    assert (HL1 : layer k d [id]) by (eapply layer_incl; [|exact HL]; intros i [<-|[]]; left; reflexivity).
    assert (H : going b x d1 /\ layer k d1 t).
    { split; [eapply expand_going; eauto|]. eapply layer_step_to; [eapply expand_size; eauto|]. eapply layer_incl; [|exact HL]. intros i Hi. right. exact Hi. }
    destruct (i_type inp); try exact H. destruct (is_exact (n_flags n1)); [|exact H]. apply pw_bind, pw_try. exact H. }
  eapply pw_mono; [|exact G]. cbn beta. intros d1 [S1 S2]. apply IH; assumption.
Qed.
Lemma pw_and {A} (p : prog S A) (Q1 Q2 : A -> Prop) : pw p Q1 -> pw p Q2 -> pw p (fun a => Q1 a /\ Q2 a).
Proof. induction p; cbn; auto. Qed.
Lemma bar_edge_turn k0 t (d : dd) curr : i_type inp <> Exact -> upto k0 t d -> edgy d -> k0 + t < N ->
  pw (MddBarrier.layer_step eqb orc inp k0 (k0 + t) (nv (k0 + t)) d curr) (fun r => match snd r with None => few (fst r) | Some _ => edgy (fst r) end).
Proof.
  intros Hty U He Hk. unfold MddBarrier.layer_step. destruct (taken_layer S inp orc at_depth D Hiter k0 t d curr (3 * (k0 + t) + 1) U) as [HL Hlen]. destruct (taken d curr (3 * (k0 + t) + 1) He) as (w & Nd & Hw & Hb).
  set (d2 := set_next (set_prev d curr) []) in *. set (c1 := map snd _) in *.
  destruct c1 as [|c0 ct] eqn:Ec.
  - cbn. apply edgy_few in He. exact He.
  - rewrite <- Ec in *. clear Ec. apply pw_bind. eapply pw_mono; [|apply pw_and; [apply (prune_size S at_depth (k0 + t)); exact HL|apply prune_edges; [exact Nd|exact Hw]]].
    cbn beta. intros [d3 curr2] ((G3 & L3 & N3) & (K3 & _ & Nd3 & w3 & W3 & Lw)). cbn [fst snd] in *.
    apply pw_bind, pw_pure. intros [d4 curr3] E4. apply pw_bind. destruct G3 as [_ _ X3 X4]. destruct K3 as [_ F3].
    assert (G : g_next d4 = [] /\ g_explored d4 = g_explored d2 /\ layer (k0 + t) d4 curr3 /\ length (g_edges d4) <= length (g_edges d2) + copies * w).
    { assert (Hkeep : Some (d3, curr2) = Some (d4, curr3) -> g_next d4 = [] /\ g_explored d4 = g_explored d2 /\ layer (k0 + t) d4 curr3 /\ length (g_edges d4) <= length (g_edges d2) + copies * w).
      { intros H. injection H as <- <-. split; [rewrite X3; reflexivity|]. split; [exact X4|]. split; [exact L3|rewrite F3; lia]. }
      unfold shrink in E4. unfold copies in *. destruct (i_type inp) eqn:Et; [congruence| |].
      - destruct (i_width inp <? length curr2) eqn:Ew; cbn [andb] in E4; [|apply Hkeep, E4]. apply Nat.ltb_lt in Ew. destruct (k0 + 1 <? k0 + t); cbn [andb] in E4; [|apply Hkeep, E4].
        destruct (relax_size S eqb inp orc P R at_depth Hrx Hsort Hrel _ (k0 + t) d3 curr2 d4 curr3 ltac:(lia) L3 Ew E4) as ([_ _ Y3 Y4] & L4 & _).
        pose proof (relax_adds _ _ _ _ _ _ Nd3 W3 E4) as L. rewrite F3 in L. split; [rewrite Y3, X3; reflexivity|]. split; [congruence|]. split; [exact L4|lia].
      - destruct (i_width inp <? length curr2) eqn:Ew; [|apply Hkeep, E4]. destruct (restrict_size S inp orc at_depth Hsort (k0 + t) d3 curr2 d4 curr3 L3 E4) as ([_ _ Y3 Y4] & L4 & _).
        pose proof (restrict_adds _ _ _ _ E4) as L. split; [rewrite Y3, X3; reflexivity|]. split; [congruence|]. split; [exact L4|rewrite L, F3; lia]. }
    destruct G as (G1 & G2 & G5 & G4). eapply pw_mono; [|apply (expand_ones_going (k0 + t) (k0 + t) Hk curr3 d4 _ _ G5 (going_start d4 G1))]. cbn beta. intros d5 S5. cbn.
    eapply going_edgy; [eapply shrunk_going; [exact d|exact Hb|exact G2|exact G4]|exact S5].
Qed.
Lemma bar_edge_turns k0 : i_type inp <> Exact -> forall fuel t (d : dd) curr, upto k0 t d -> edgy d -> k0 + t <= N -> pw (MddBarrier.layers eqb fuel orc inp k0 (k0 + t) d curr) (fun r => few (fst r)).
Proof.
  intros Hty. induction fuel as [|f IH]; cbn [MddBarrier.layers]; intros t d curr U He Hk; [exact I|].
  destruct (pb_next_var _ _) as [var|] eqn:Ev; [|cbn; apply edgy_few, He].
  destruct (next_var_is S inp orc P at_depth nv D Hpb Hiter Hwf k0 t d _ var Hk U Ev) as [Hlt ->]. apply pw_bind.
  eapply pw_mono; [|apply pw_and; [apply (bar_turn S eqb inp orc P R at_depth nv D Hpb Hrx Hiter Hsort Hwf Hrel HD k0 t d curr Hty U Hlt)|apply (bar_edge_turn k0 t d curr Hty U He Hlt)]].
  cbn beta. intros [d1 [curr1|]] [H1 H2]; cbn [fst snd] in H1, H2; [|exact H2]. rewrite <- Nat.add_succ_r. apply IH; [exact H1|exact H2|lia].
Qed.
Lemma bar_few_pw debug (d : dd) : i_type inp <> Exact -> at_depth (depth_of (i_res inp)) (sp_state (i_res inp)) -> depth_of (i_res inp) <= N ->
  pw (MddBarrier.compile eqb debug orc inp d) few.
Proof.
  intros Hty Ha Hk. unfold MddBarrier.compile. apply pw_bind, pw_pure. intros d0 E0. destruct (root_upto S inp at_depth D debug _ d d0 Ha E0) as [U Hr]. rewrite Hr.
  apply pw_bind. eapply pw_mono; [|rewrite <- (Nat.add_0_r (depth_of (i_res inp))) at 2; apply bar_edge_turns; [exact Hty|exact U|eapply root_edgy; exact E0|lia]].
  cbn beta. intros [d1 r] H1. cbn [fst] in H1. destruct r; [exact H1|]. eapply pw_mono; [|apply bar_end_same]. cbn beta. intros d2 K. eapply same_few; eauto.
Qed.
Theorem bar_few alone debug (d d' : dd) T T' : i_type inp <> Exact -> at_depth (depth_of (i_res inp)) (sp_state (i_res inp)) -> depth_of (i_res inp) <= N ->
  returns eqb alone (MddBarrier.compile eqb debug orc inp d) T d' T' -> few d'.
Proof. intros A B C0 H. exact (pw_gets _ _ _ _ _ _ _ _ H (bar_few_pw debug d A B C0)). Qed.
End Edges.

(** * A call that respects the contract *)
Section Calls.
Variable S : Type.
Variable eqb : S -> S -> bool.
Variable P : problem S.
Variable R : relaxation S.
Variable at_depth : nat -> S -> Prop.
Variable nv : nat -> nat.
Variable C : Z.
Variable D : nat.
Lemma few_both inp (d : dd S) : (i_type inp <> Exact -> few S inp D d) ->
  (i_type inp = Restricted -> length (g_edges d) <= g_explored d * D) /\ (i_type inp = Relaxed -> length (g_edges d) <= 2 * (g_explored d * D)).
Proof. unfold few, copies. intros H. split; intros E; rewrite E in H; specialize (H ltac:(discriminate)); lia. Qed.
Theorem all_edges debug orc inp (d dF : dd S) : well_formed S eqb P R at_depth nv C -> good_call S P R nv debug orc inp -> domains_within S P at_depth nv D ->
  MddAll.compile eqb debug orc inp d = Some dF ->
  (i_type inp = Restricted -> length (g_edges dF) <= g_explored dF * D) /\ (i_type inp = Relaxed -> length (g_edges dF) <= 2 * (g_explored dF * D)).
Proof.
  intros WF [(L1 & L2 & _) Hpb Hrx _ Hg _] HD E. apply few_both. intros Hty. destruct (genuine_at S eqb P R at_depth nv C D _ WF Hg) as [Ha Hd].
  eapply (all_few S eqb inp orc P R at_depth nv D); eauto; apply WF.
Qed.
Theorem bar_edges alone debug orc inp (d dF : dd S) T T' : well_formed S eqb P R at_depth nv C -> good_call S P R nv debug orc inp -> domains_within S P at_depth nv D ->
  returns eqb alone (MddBarrier.compile eqb debug orc inp d) T dF T' ->
  (i_type inp = Restricted -> length (g_edges dF) <= g_explored dF * D) /\ (i_type inp = Relaxed -> length (g_edges dF) <= 2 * (g_explored dF * D)).
Proof.
  intros WF [(L1 & L2 & _) Hpb Hrx _ Hg _] HD E. apply few_both. intros Hty. destruct (genuine_at S eqb P R at_depth nv C D _ WF Hg) as [Ha Hd].
  eapply (bar_few S eqb inp orc P R at_depth nv D); eauto; apply WF.
Qed.
End Calls.
