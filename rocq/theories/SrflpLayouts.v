(** Completions of the SRFLP example, and its solutions: the layouts with their cost. *)
From Verif Require Import Spec Srflp SrflpSpec Bits BitsFacts MatrixFacts PspFacts SrflpFacts.
From Coq Require Import Lia.
Open Scope Z_scope.

Lemma zsum_map_perm {A} (f : A -> Z) l l' : Permutation l l' -> zsum (map f l) = zsum (map f l').
Proof. intros H. apply zsum_perm. apply Permutation_map. exact H. Qed.
Lemma zsum_swap {A B} (f : A -> B -> Z) la lb : zsum (map (fun a => zsum (map (f a) lb)) la) = zsum (map (fun b => zsum (map (fun a => f a b) la)) lb).
Proof.
  induction la as [|a la IH]; cbn [map].
  - cbn. induction lb as [|b lb IHb]; [reflexivity|]. cbn [map]. rewrite zsum_cons, <- IHb. reflexivity.
  - rewrite zsum_cons, IH. symmetry. rewrite <- zsum_add. apply zsum_ext. intros b _. apply zsum_cons.
Qed.

Lemma pair_sum_perm (g : nat -> nat -> Z) l l' : (forall i j, g i j = g j i) -> Permutation l l' -> pair_sum g l = pair_sum g l'.
Proof.
  intros Hg H. induction H as [|x l l' H IH|x y l|l l' l'' _ IH1 _ IH2]; cbn [pair_sum map].
  - reflexivity.
  - rewrite IH, (zsum_map_perm (g x) _ _ H). reflexivity.
  - rewrite !zsum_cons. rewrite (Hg y x). lia.
  - congruence.
Qed.
Lemma pair_sum_ext (f g : nat -> nat -> Z) l : (forall i j, In i l -> In j l -> f i j = g i j) -> pair_sum f l = pair_sum g l.
Proof.
  induction l as [|x l IH]; intros H; [reflexivity|]. cbn [pair_sum]. rewrite IH; [|intros i j Hi Hj; apply H; right; assumption]. f_equal.
  apply zsum_ext. intros j Hj. apply H; [left; reflexivity|right; exact Hj].
Qed.
Lemma pair_sum_lin (f g : nat -> nat -> Z) l : pair_sum (fun i j => f i j + 2 * g i j) l = pair_sum f l + 2 * pair_sum g l.
Proof.
  induction l as [|x l IH]; [reflexivity|]. cbn [pair_sum]. rewrite IH. rewrite zsum_add, zsum_mul. lia.
Qed.

Section Layouts.
Variable debug : bool.
Variable I : sr_inst.
Variables F L : Z.
Hypothesis Hok : sr_ok I F L.
Let n := sr_n I.
Notation P := (sr_problem debug I).
Definition sr_nv (k : nat) : nat := k.
Notation compl := (completion sr_state P sr_nv).
Notation layer := (sr_layer I F).
Notation plc := (placeable I).
Notation pld := (placed I).
Notation cross := (crossing I).

Definition next (k : nat) (s : sr_state) (i : nat) : sr_state := pb_trans P s (mk_dec k (Z.of_nat i)).

Lemma next_placed k s i : layer k s -> plc k s i -> pld s i (next k s i).
Proof.
  intros Hs Hi. destruct (trans_spec I F L Hok k s i k Hs (placeable_lt I F k s i Hs Hi)) as (s' & H & Hp).
  unfold next. cbn [sr_problem pb_trans]. rewrite H. exact Hp.
Qed.
Lemma next_layer k s i : layer k s -> (k < n)%nat -> plc k s i -> layer (S k) (next k s i).
Proof. intros Hs Hk Hi. apply (layer_placed I F L Hok k s i); auto. apply next_placed; assumption. Qed.

Lemma completion_end s ds c : compl n s ds c <-> ds = [] /\ c = 0.
Proof.
  split.
  - intros (s' & Hr). inversion Hr as [|k0 s0 d ds0 k' s0' c0 Hk]; subst; [auto|]. cbn [sr_problem pb_nb_vars] in Hk. fold n in Hk. lia.
  - intros [-> ->]. exists s. constructor.
Qed.
Lemma completion_step k s ds c : layer k s -> (k < n)%nat ->
  compl k s ds c <-> exists i ds' c', plc k s i /\ compl (S k) (next k s i) ds' c' /\
    ds = mk_dec k (Z.of_nat i) :: ds' /\ c = c' - len I i * cross k s i.
Proof.
  intros Hs Hk. split.
  - intros (s' & Hr). inversion Hr as [k0 s0|k0 s0 d ds0 k' s0' c0 Hk0 Hd Hr0]; subst.
    + cbn [sr_problem pb_nb_vars] in Hk. fold n in Hk. lia.
    + unfold sr_nv in Hd. cbn [sr_problem pb_domain] in Hd. apply (domain_in debug I F k) in Hd; [|exact Hs]. destruct Hd as (i & Hi & ->).
      exists i, ds0, c0. split; [exact Hi|]. split; [exists s'; exact Hr0|]. split; [reflexivity|].
      cbn [sr_problem pb_cost]. rewrite (cost_spec debug I F L Hok k s i k Hs Hk Hi). cbn [or_else]. lia.
  - intros (i & ds' & c' & Hi & (s' & Hr) & -> & ->). exists s'.
    replace (c' - len I i * cross k s i) with (pb_cost P s (mk_dec k (Z.of_nat i)) + c').
    + apply run_cons; [exact Hk| |exact Hr]. unfold sr_nv. cbn [sr_problem pb_domain]. apply (domain_in debug I F k); [exact Hs|]. exists i. auto.
    + cbn [sr_problem pb_cost]. rewrite (cost_spec debug I F L Hok k s i k Hs Hk Hi). cbn [or_else]. lia.
Qed.

(** *** Exact states *)

(** The state after placing the departments of [p]. *)
Record exact_at (p : list nat) (s : sr_state) : Prop := {
  ea_must : forall j, must s j = true <-> (j < n)%nat /\ ~ In j p;
  ea_maybe : forall j, maybe s j = false;
  ea_cut : forall j, free s j = true -> cut s j = zsum (map (fun x => flow I x j) p) }.

Lemma init_exact : exact_at [] (sr_init I).
Proof.
  constructor.
  - intros j. rewrite init_must, Nat.ltb_lt. cbn. tauto.
  - reflexivity.
  - intros j _. unfold cut, sr_init. cbn [sr_cut]. rewrite nth_repeat. reflexivity.
Qed.
Lemma exact_next k p s i : layer k s -> plc k s i -> exact_at p s -> exact_at (p ++ [i]) (next k s i).
Proof.
  intros Hs Hi He. pose proof (next_placed k s i Hs Hi) as Hp. constructor.
  - intros j. rewrite (pd_must _ _ _ _ Hp), andb_true_iff, negb_true_iff, Nat.eqb_neq, (ea_must _ _ He), in_app_iff. cbn [In]. split; [intros [H1 [H2 H3]]; split; [exact H2|]; intros [H4|[H4|[]]]; [auto|subst; auto]|intros [H1 H2]; split; [intros ->; apply H2; auto|split; [exact H1|auto]]].
  - intros j. rewrite (pd_maybe _ _ _ _ Hp), (ea_maybe _ _ He). apply andb_false_r.
  - intros j Hj. rewrite (pd_cut _ _ _ _ Hp j Hj). rewrite (placed_free I s i _ j Hp) in Hj. apply andb_prop in Hj. destruct Hj as [_ Hj].
    rewrite (ea_cut _ _ He j Hj), map_app, zsum_app. cbn. lia.
Qed.
Lemma exact_maybel p s : exact_at p s -> maybel I s = [].
Proof. intros He. unfold maybel. rewrite (filter_ext_seq _ (fun _ => false)); [apply filter_nothing|]. intros i _. apply (ea_maybe _ _ He). Qed.
Lemma exact_placeable k p s i : exact_at p s -> plc k s i <-> (i < n)%nat /\ ~ In i p.
Proof.
  intros He. unfold placeable. rewrite (ea_must _ _ He), (ea_maybe _ _ He). split; [|tauto]. intros [H|[H _]]; [exact H|discriminate].
Qed.

(** What is left to pay once [p] is placed, for the order [l] of the others. *)
Fixpoint rest_cost (p l : list nat) : Z :=
  match l with
  | [] => 0
  | d :: t => len I d * zsum (map (fun x => zsum (map (fun y => flow I y x) p)) t) + rest_cost (p ++ [d]) t
  end.

Lemma perm_split p d t : Permutation (seq 0 n) (p ++ d :: t) -> (d < n)%nat /\ ~ In d p /\ Permutation (seq 0 n) ((p ++ [d]) ++ t).
Proof.
  intros H. split; [|split].
  - assert (In d (seq 0 n)) as Hd by (apply (Permutation_in _ (Permutation_sym H)); apply in_or_app; right; left; reflexivity). apply in_seq in Hd. lia.
  - pose proof (Permutation_NoDup H (seq_NoDup n 0)) as Hnd. apply NoDup_remove_2 in Hnd. intros Hd. apply Hnd. apply in_or_app. left. exact Hd.
  - rewrite <- app_assoc. exact H.
Qed.

Lemma mustl_exact p s l : exact_at p s -> Permutation (seq 0 n) (p ++ l) -> Permutation (mustl I s) l.
Proof.
  intros He Hp. pose proof (Permutation_NoDup Hp (seq_NoDup n 0)) as Hnd. apply NoDup_Permutation.
  - apply mustl_nodup.
  - clear - Hnd. induction p as [|x p IH]; [exact Hnd|]. inversion Hnd; subst. apply IH. assumption.
  - intros j. unfold mustl. fold n. rewrite filter_In, (ea_must _ _ He). split.
    + intros (Hj & _ & Hn). apply (Permutation_in _ Hp) in Hj. apply in_app_or in Hj. tauto.
    + intros Hj. assert (In j (seq 0 n)) as Hs by (apply (Permutation_in _ (Permutation_sym Hp)); apply in_or_app; auto). split; [exact Hs|]. apply in_seq in Hs. split; [lia|].
      intros Hjp. apply in_split in Hjp. destruct Hjp as (p1 & p2 & ->). rewrite <- app_assoc in Hnd. cbn in Hnd. apply NoDup_remove_2 in Hnd. apply Hnd. rewrite !in_app_iff. tauto.
Qed.

Lemma crossing_exact k p s d t : layer k s -> exact_at p s -> Permutation (seq 0 n) (p ++ d :: t) ->
  cross k s d = zsum (map (fun x => zsum (map (fun y => flow I y x) p)) t).
Proof.
  intros Hs He Hp. unfold crossing. rewrite (exact_maybel p s He). cbn [wo filter map]. unfold mins. cbn. rewrite firstn_nil. cbn. rewrite Z.add_0_r.
  pose proof (mustl_exact p s (d :: t) He Hp) as Hm.
  assert (Permutation (wo d (mustl I s)) t) as Hw.
  { apply (Permutation_cons_inv (a := d)). etransitivity; [|exact Hm]. symmetry. apply wo_perm; [apply mustl_nodup|]. apply (Permutation_in _ (Permutation_sym Hm)). left. reflexivity. }
  etransitivity; [apply (zsum_map_perm (cut s) _ _ Hw)|]. apply zsum_ext. intros x Hx. apply (ea_cut _ _ He).
  unfold free. rewrite (proj2 (ea_must _ _ He x)); [reflexivity|].
  assert (In x (mustl I s)) as Hx' by (apply (Permutation_in _ (Permutation_sym Hm)); right; exact Hx). apply filter_In in Hx'. apply (ea_must _ _ He). tauto.
Qed.

Definition decisions_from (k : nat) (l : list nat) : list decision :=
  map (fun kx => mk_dec (fst kx) (Z.of_nat (snd kx))) (combine (seq k (length l)) l).

Lemma exact_completion : forall m k p s ds c, (k + m = n)%nat -> length p = k -> layer k s -> exact_at p s -> NoDup p -> (forall x, In x p -> (x < n)%nat) ->
  compl k s ds c <-> exists l, Permutation (seq 0 n) (p ++ l) /\ ds = decisions_from k l /\ c = - rest_cost p l.
Proof.
  induction m as [|m IH]; intros k p s ds c Hk Hp Hs He Hnd Hlt.
  - assert (k = n) as -> by lia. rewrite completion_end.
    assert (Permutation (seq 0 n) p) as Hpp.
    { symmetry. apply NoDup_Permutation_bis; [exact Hnd|rewrite seq_length; lia|]. intros x Hx. apply in_seq. specialize (Hlt x Hx). lia. }
    split.
    + intros [-> ->]. exists []. rewrite app_nil_r. auto.
    + intros (l & Hl & -> & ->). apply Permutation_length in Hl. rewrite app_length, seq_length in Hl. destruct l; [auto|]. cbn [length] in Hl. lia.
  - rewrite (completion_step k s ds c Hs ltac:(lia)). split.
    + intros (i & ds' & c' & Hi & Hc & -> & ->). pose proof (proj1 (exact_placeable k p s i He) Hi) as [Hin Hni].
      apply (IH (S k) (p ++ [i])) in Hc.
      * destruct Hc as (l & Hl & -> & ->). exists (i :: l). rewrite <- app_assoc in Hl. cbn [app] in Hl. split; [exact Hl|]. split; [reflexivity|].
        cbn [rest_cost]. rewrite (crossing_exact k p s i l Hs He Hl). lia.
      * lia.
      * rewrite app_length. cbn. lia.
      * apply next_layer; [exact Hs|lia|exact Hi].
      * apply exact_next; assumption.
      * apply (Permutation_NoDup (l := i :: p)); [apply Permutation_cons_append|]. constructor; assumption.
      * intros x Hx. apply in_app_or in Hx. destruct Hx as [Hx|[<-|[]]]; auto.
    + intros (l & Hl & -> & ->). destruct l as [|i l].
      { rewrite app_nil_r in Hl. apply Permutation_length in Hl. rewrite seq_length in Hl. lia. }
      destruct (perm_split p i l Hl) as (Hin & Hni & Hl').
      assert (plc k s i) as Hi by (apply (exact_placeable k p s i He); auto).
      exists i, (decisions_from (S k) l), (- rest_cost (p ++ [i]) l). split; [exact Hi|]. split; [|split; [reflexivity|]].
      * apply (IH (S k) (p ++ [i])).
        -- lia.
        -- rewrite app_length. cbn. lia.
        -- apply next_layer; [exact Hs|lia|exact Hi].
        -- apply exact_next; assumption.
        -- apply (Permutation_NoDup (l := i :: p)); [apply Permutation_cons_append|]. constructor; assumption.
        -- intros x Hx. apply in_app_or in Hx. destruct Hx as [Hx|[<-|[]]]; auto.
        -- exists l. auto.
      * cbn [rest_cost]. rewrite (crossing_exact k p s i l Hs He Hl). lia.
Qed.

(** *** The cost of a layout *)

(** Flow from [x] over the departments between [x] and what follows. *)
Fixpoint over (x : nat) (l : list nat) : Z :=
  match l with [] => 0 | y :: t => len I y * zsum (map (flow I x) t) + over x t end.
Fixpoint over_all (l : list nat) : Z := match l with [] => 0 | x :: t => over x t + over_all t end.

Lemma rest_cost_over : forall l p, rest_cost p l = zsum (map (fun x => over x l) p) + over_all l.
Proof.
  induction l as [|d l IH]; intros p; cbn [rest_cost over over_all].
  - induction p as [|x p IHp]; cbn [map]; [reflexivity|]. rewrite zsum_cons. lia.
  - rewrite IH, map_app, zsum_app. cbn [map]. rewrite zsum_cons. change (zsum []) with 0.
    rewrite zsum_add, zsum_mul. 
    assert (zsum (map (fun x => zsum (map (flow I x) l)) p) = zsum (map (fun x => zsum (map (fun y => flow I y x) p)) l)) as E by exact (zsum_swap (flow I) p l).
    rewrite E. lia.
Qed.

Lemma over_before x l : NoDup l -> over x l = zsum (map (fun y => flow I x y * zsum (map (len I) (before l y))) l).
Proof.
  induction l as [|z l IH]; intros H; [reflexivity|]. inversion H as [|? ? Hz Hl]; subst. cbn [over map before]. rewrite Nat.eqb_refl, zsum_cons, (IH Hl). cbn [map]. change (zsum []) with 0.
  rewrite <- zsum_mul, <- zsum_add, Z.mul_0_r, Z.add_0_l. apply zsum_ext. intros y Hy. destruct (Nat.eqb_spec z y) as [->|_]; [contradiction|]. cbn [map]. rewrite zsum_cons. lia.
Qed.

Lemma before_app l1 l2 y : ~ In y l1 -> before (l1 ++ l2) y = l1 ++ before l2 y.
Proof.
  induction l1 as [|x l1 IH]; intros H; [reflexivity|]. cbn [app before]. destruct (Nat.eqb_spec x y) as [->|_]; [exfalso; apply H; left; reflexivity|].
  rewrite IH; [reflexivity|]. intros Hy. apply H. right. exact Hy.
Qed.

Lemma pair_sum_centres l : NoDup l -> (forall x, In x l -> (x < n)%nat) -> forall p, NoDup (p ++ l) ->
  pair_sum (fun i j => flow I i j * Z.abs (centre2 I (p ++ l) i - centre2 I (p ++ l) j)) l =
  pair_sum (fun i j => flow I i j * (len I i + len I j)) l + 2 * over_all l.
Proof.
  induction l as [|x l IH]; intros Hl Hlt p Hpl; [reflexivity|]. inversion Hl as [|? ? Hx Hl']; subst. cbn [pair_sum over_all].
  assert (p ++ x :: l = (p ++ [x]) ++ l) as E by (rewrite <- app_assoc; reflexivity).
  pose proof (IH Hl' (fun y Hy => Hlt y (or_intror Hy)) (p ++ [x])) as IH'. rewrite <- E in IH'. rewrite (IH' Hpl).
  rewrite (over_before x l Hl').
  enough (zsum (map (fun j => flow I x j * Z.abs (centre2 I (p ++ x :: l) x - centre2 I (p ++ x :: l) j)) l) =
    zsum (map (fun j => flow I x j * (len I x + len I j)) l) + 2 * zsum (map (fun y => flow I x y * zsum (map (len I) (before l y))) l)) by lia.
  rewrite <- zsum_mul, <- zsum_add. apply zsum_ext. intros y Hy. unfold centre2.
  assert (~ In x p) as Hxp by (apply NoDup_remove_2 in Hpl; intros H; apply Hpl; apply in_or_app; auto).
  assert (~ In y (p ++ [x])) as Hyp.
  { rewrite E in Hpl. intros H. apply in_split in Hy. destruct Hy as (l1 & l2 & ->). rewrite app_assoc in Hpl. apply NoDup_remove_2 in Hpl. apply Hpl. rewrite !in_app_iff in *. tauto. }
  rewrite (before_app p (x :: l) x Hxp). cbn [before]. rewrite Nat.eqb_refl, app_nil_r. rewrite E, (before_app (p ++ [x]) l y Hyp). rewrite !map_app, !zsum_app. cbn [map]. rewrite zsum_cons. change (zsum []) with 0.
  assert (0 <= zsum (map (len I) (before l y))) as Hb.
  { apply zsum_nonneg. intros v Hv. apply in_map_iff in Hv. destruct Hv as (z & <- & Hz).
    assert (In z l) as Hzl. { clear - Hz. induction l as [|w l IHl]; [destruct Hz|]. cbn [before] in Hz. destruct (Nat.eqb w y); [destruct Hz|]. destruct Hz as [->|Hz]; [left; reflexivity|right; auto]. }
    pose proof (so_len_range _ _ _ Hok z (Hlt z (or_intror Hzl))). lia. }
  pose proof (so_len_range _ _ _ Hok x (Hlt x (or_introl eq_refl))). pose proof (so_len_range _ _ _ Hok y (Hlt y (or_intror Hy))).
  rewrite Z.abs_neq by lia. ring.
Qed.

Lemma layout_lt l x : layout I l -> In x l -> (x < n)%nat.
Proof. intros Hl Hx. apply (Permutation_in _ (Permutation_sym Hl)) in Hx. apply in_seq in Hx. fold n in Hx. lia. Qed.
Lemma layout_nodup l : layout I l -> NoDup l.
Proof. intros Hl. apply (Permutation_NoDup Hl). apply seq_NoDup. Qed.

Lemma pair_sum_layout (g : nat -> nat -> Z) l : layout I l -> (forall i j, (i < n)%nat -> (j < n)%nat -> g i j = g j i) -> pair_sum g (seq 0 n) = pair_sum g l.
Proof.
  intros Hl Hg. set (g' := fun i j => if (i <? n)%nat && (j <? n)%nat then g i j else 0).
  assert (forall l', (forall x, In x l' -> (x < n)%nat) -> pair_sum g l' = pair_sum g' l') as Hgg.
  { intros l' Hl'. apply pair_sum_ext. intros i j Hi Hj. unfold g'. rewrite (proj2 (Nat.ltb_lt _ _) (Hl' i Hi)), (proj2 (Nat.ltb_lt _ _) (Hl' j Hj)). reflexivity. }
  rewrite (Hgg (seq 0 n)) by (intros x Hx; apply in_seq in Hx; lia). rewrite (Hgg l) by (intros x Hx; apply (layout_lt l x Hl Hx)).
  apply pair_sum_perm; [|exact Hl]. intros i j. unfold g'. rewrite andb_comm. destruct (Nat.ltb_spec j n), (Nat.ltb_spec i n); cbn [andb]; try reflexivity. apply Hg; assumption.
Qed.

Theorem layout_cost_over l : layout I l -> layout_cost2 I l = unavoidable2 I + 2 * over_all l.
Proof.
  intros Hl. unfold layout_cost2, unavoidable2. fold n.
  rewrite (pair_sum_layout _ l Hl) by (intros i j Hi Hj; rewrite (so_sym _ _ _ Hok i j Hi Hj); f_equal; lia).
  rewrite (pair_sum_layout _ l Hl) by (intros i j Hi Hj; rewrite (so_sym _ _ _ Hok i j Hi Hj); f_equal; lia).
  apply (pair_sum_centres l (layout_nodup l Hl) (fun x => layout_lt l x Hl) []). apply layout_nodup. exact Hl.
Qed.

Theorem solutions_are_layouts ds v : solution sr_state P sr_nv ds v <->
  exists l, layout I l /\ ds = layout_decisions l /\ 2 * v = unavoidable2 I - layout_cost2 I l.
Proof.
  unfold solution. cbn [sr_problem pb_init pb_init_val].
  assert (forall c, compl 0 (sr_init I) ds c <-> exists l, layout I l /\ ds = layout_decisions l /\ c = - over_all l) as H.
  { intros c. rewrite (exact_completion n 0%nat [] (sr_init I)); [|lia|reflexivity|exact (init_layer I F)|exact init_exact|constructor|intros x []].
    split; intros (l & H1 & H2 & H3); exists l; (split; [exact H1|]); (split; [exact H2|]); rewrite H3, rest_cost_over; cbn [map]; change (zsum []) with 0; lia. }
  split.
  - intros (c & Hc & ->). apply H in Hc. destruct Hc as (l & H1 & H2 & ->). exists l. split; [exact H1|]. split; [exact H2|]. rewrite (layout_cost_over l H1). lia.
  - intros (l & H1 & H2 & H3). rewrite (layout_cost_over l H1) in H3. exists (- over_all l). split; [apply H; exists l; auto|]. lia.
Qed.
End Layouts.
