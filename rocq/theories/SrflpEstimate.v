(** The estimate of the SRFLP example, in a release build: what it computes, and that no completion does better. *)
From Verif Require Import Spec Srflp SrflpSpec Bits BitsFacts MatrixFacts PspFacts SrflpFacts SrflpLayouts SrflpMerge SrflpSort SrflpOrder SrflpFloat.
From Coq Require Import Lia Sorted Permutation.
Open Scope Z_scope.

(** *** Unordered pairs *)
Fixpoint upairs (l : list nat) : list (nat * nat) := match l with [] => [] | x :: t => map (pair x) t ++ upairs t end.
Lemma upairs_in : forall l i j, In (i, j) (upairs l) -> In i l /\ In j l.
Proof.
  induction l as [|x l IH]; intros i j H; [destruct H|]. cbn [upairs] in H. apply in_app_or in H. destruct H as [H|H].
  - apply in_map_iff in H. destruct H as (y & E & Hy). inversion E; subst. split; [left; reflexivity|right; exact Hy].
  - apply IH in H. split; right; tauto.
Qed.
Lemma upairs_length l : (2 * length (upairs l) = length l * (length l - 1))%nat.
Proof. induction l as [|x l IH]; [reflexivity|]. cbn [upairs length]. rewrite app_length, map_length. destruct (length l); [lia|]. nia. Qed.
Lemma upairs_seq : forall m a, flat_map (fun i => map (pair i) (seq (S i) (a + m - S i))) (seq a m) = upairs (seq a m).
Proof.
  induction m as [|m IH]; intros a; [reflexivity|]. cbn [seq flat_map upairs]. replace (a + S m - S a)%nat with m by lia. f_equal.
  rewrite <- IH. f_equal. replace (a + S m)%nat with (S a + m)%nat by lia. reflexivity.
Qed.
Lemma sr_pairs_upairs n : sr_pairs n = upairs (seq 0 n).
Proof. unfold sr_pairs. apply (upairs_seq n 0). Qed.
Lemma upairs_perm {B} (f : nat * nat -> B) l l' : Permutation l l' -> (forall i j, In i l -> In j l -> f (i, j) = f (j, i)) -> Permutation (map f (upairs l)) (map f (upairs l')).
Proof.
  intros H. induction H as [|x l l' H IH|x y l|l l' l'' H1 IH1 H2 IH2]; intros Hf; cbn [upairs].
  - reflexivity.
  - rewrite !map_app, !map_map. apply Permutation_app; [apply Permutation_map; exact H|]. apply IH. intros i j Hi Hj. apply Hf; right; assumption.
  - cbn [map app]. rewrite (Hf y x) by (cbn; tauto). constructor. rewrite !map_app, !app_assoc. apply Permutation_app_tail. apply Permutation_app_comm.
  - etransitivity; [apply IH1; exact Hf|]. apply IH2. intros i j Hi Hj. apply Hf; [apply (Permutation_in _ (Permutation_sym H1)); exact Hi|apply (Permutation_in _ (Permutation_sym H1)); exact Hj].
Qed.
Lemma upairs_app {B} (f : nat * nat -> B) : forall a b, Permutation (map f (upairs (a ++ b))) (map f (upairs a) ++ map f (list_prod a b) ++ map f (upairs b)).
Proof.
  induction a as [|x a IH]; intros b; cbn [app upairs list_prod]; [reflexivity|]. rewrite !map_app, IH, !map_map, <- !app_assoc. apply Permutation_app_head.
  rewrite (app_assoc (map (fun y => f (x, y)) b)). rewrite (app_assoc (map f (upairs a)) (map (fun y => f (x, y)) b)). rewrite !app_assoc. do 2 apply Permutation_app_tail. apply Permutation_app_comm.
Qed.

(** *** The flows that are counted for an order, as pairs of departments *)
Definition norm (p : nat * nat) : nat * nat := (Nat.min (fst p) (snd p), Nat.max (fst p) (snd p)).
Section Cells.
Variable flow : nat -> nat -> Z.
Variable mb : nat -> bool.
Variable ok : nat -> Prop.
Hypothesis Hsym : forall i j, ok i -> ok j -> flow i j = flow j i.
Notation mu := (mu mb).
Notation my := (my mb).
Notation nm l := (length (my l)).
Definition flow2 (p : nat * nat) : Z := flow (fst p) (snd p).

Lemma cells_choice len low : forall l Y, order len mb Y l -> (forall j, In j l \/ In j Y -> ok j) -> exists X W,
  Permutation (map fst (cells flow mb low Y l)) (map flow2 (upairs (mu l)) ++ map flow2 X ++ map flow2 W) /\
  NoDup X /\ (forall p, In p X -> In (fst p) (mu l) /\ In (snd p) Y) /\ length X = (length (mu l) * nm l)%nat /\
  NoDup (map norm W) /\ (forall p, In p W -> In (fst p) Y /\ In (snd p) Y /\ fst p <> snd p) /\ (2 * length W = nm l * (nm l - 1))%nat.
Proof.
  induction l as [|d t IH]; intros Y Ho Hk; cbn [cells].
  - exists [], []. split; [reflexivity|]. split; [constructor|]. split; [intros p []|]. split; [reflexivity|]. split; [constructor|]. split; [intros p []|reflexivity].
  - pose proof (order_tail len flow mb _ _ _ Ho) as Ht. pose proof (od_nodup _ _ _ _ Ho) as Hnd. inversion Hnd as [|? ? Hd Hnt]; subst.
    assert (forall j, In j (wo d Y) -> In j Y /\ j <> d) as HY by (intros j; apply in_wo).
    destruct (IH (wo d Y) Ht) as (X & W & H1 & H2 & H3 & H4 & H5 & H6 & H7); [intros j [Hj|Hj]; apply Hk; [left; right; exact Hj|right; apply HY; exact Hj]|].
    pose proof (order_count _ _ _ _ Ht) as Hc.
    destruct (smallest_choice (flow d) (wo d Y) (nm t) Hc) as (u & r & Hu & Lu & Eu).
    assert (forall j, In j u -> In j (wo d Y)) as Hin by (intros j Hj; apply (Permutation_in _ (Permutation_sym Hu)); apply in_or_app; auto).
    assert (NoDup u) as Hnu by (apply (nodup_app_l u r); apply (Permutation_NoDup Hu); apply (od_Y _ _ _ _ Ht)).
    rewrite map_app, combine_fst by (rewrite vals_length, map_length, seq_length; reflexivity).
    pose proof (vals_perm mb (flow d) (wo d Y) t Hc) as Hv. rewrite Eu in Hv.
    assert (map (flow d) (mu t) = map flow2 (map (pair d) (mu t))) as E1 by (rewrite map_map; reflexivity).
    assert (map (flow d) u = map flow2 (map (pair d) u)) as E2 by (rewrite map_map; reflexivity).
    destruct (mb d) eqn:Em.
    + (* [d] only may be placed *)
      assert (mu (d :: t) = mu t) as Emu by (unfold SrflpOrder.mu; cbn [filter]; rewrite Em; reflexivity).
      assert (my (d :: t) = d :: my t) as Emy by (unfold SrflpOrder.my; cbn [filter]; rewrite Em; reflexivity). rewrite Emu, Emy. cbn [length].
      assert (In d Y) as HdY by (apply (od_my _ _ _ _ Ho); rewrite Emy; left; reflexivity).
      exists (map (fun j => (j, d)) (mu t) ++ X), (map (pair d) u ++ W). split; [|split; [|split; [|split; [|split; [|split]]]]].
      * rewrite !map_app, H1, Hv. rewrite E2. rewrite (map_map (fun j => (j, d)) flow2).
        assert (map (flow d) (mu t) = map (fun j => flow2 (j, d)) (mu t)) as ->.
        { apply map_ext_in. intros j Hj. apply filter_In in Hj. unfold flow2. cbn [fst snd]. apply Hsym; apply Hk; left; [left; reflexivity|right; tauto]. }
        generalize (map (fun j => flow2 (j, d)) (mu t)) as a. generalize (map flow2 (map (pair d) u)) as b. generalize (map flow2 (upairs (mu t))) as c0. generalize (map flow2 X) as x. generalize (map flow2 W) as w.
        intros w x c0 b a. rewrite <- !app_assoc. rewrite (Permutation_app_swap_app c0 a). apply Permutation_app_head.
        rewrite (Permutation_app_swap_app b c0). apply Permutation_app_head. apply Permutation_app_swap_app.
      * apply nodup_app; [apply FinFun.Injective_map_NoDup; [intros a b E; congruence|apply NoDup_filter; exact Hnt]|exact H2|].
        intros p Hp Hx. apply in_map_iff in Hp. destruct Hp as (j & <- & _). apply H3 in Hx. cbn [snd] in Hx. destruct Hx as [_ Hx]. apply HY in Hx. tauto.
      * intros p Hp. apply in_app_or in Hp. destruct Hp as [Hp|Hp].
        -- apply in_map_iff in Hp. destruct Hp as (j & <- & Hj). auto.
        -- apply H3 in Hp. destruct Hp as [Hp1 Hp2]. apply HY in Hp2. tauto.
      * rewrite app_length, map_length, H4. lia.
      * rewrite map_app. apply nodup_app; [|exact H5|].
        -- rewrite map_map. assert (forall j, In j u -> j <> d) as Hjd by (intros j Hj; apply HY, Hin, Hj). clear - Hnu Hjd.
           induction Hnu as [|x u Hx Hu IH]; cbn [map]; [constructor|]. constructor; [|apply IH; intros j Hj; apply Hjd; right; exact Hj].
           intros Hi. apply in_map_iff in Hi. destruct Hi as (y & E & Hy). unfold norm in E. cbn [fst snd] in E. inversion E as [[E1 E2]].
           assert (x = y) as -> by lia. contradiction.
        -- intros p Hp Hw. rewrite map_map in Hp. apply in_map_iff in Hp. destruct Hp as (j & <- & Hj). apply in_map_iff in Hw. destruct Hw as ([a b] & E & Hw).
           apply H6 in Hw. cbn [fst snd] in Hw. destruct Hw as (Ha & Hb & _). apply HY in Ha. apply HY in Hb. unfold norm in E. cbn [fst snd] in E. inversion E as [[E1' E2']]. lia.
      * intros p Hp. apply in_app_or in Hp. destruct Hp as [Hp|Hp].
        -- apply in_map_iff in Hp. destruct Hp as (j & <- & Hj). cbn [fst snd]. apply Hin, HY in Hj. split; [exact HdY|]. split; [tauto|]. intros ->. tauto.
        -- apply H6 in Hp. destruct Hp as (Ha & Hb & Hn). apply HY in Ha. apply HY in Hb. tauto.
      * rewrite app_length, map_length, Lu. destruct (nm t); [lia|]. nia.
    + assert (mu (d :: t) = d :: mu t) as Emu by (unfold SrflpOrder.mu; cbn [filter]; rewrite Em; reflexivity).
      assert (my (d :: t) = my t) as Emy by (unfold SrflpOrder.my; cbn [filter]; rewrite Em; reflexivity). rewrite Emu, Emy. cbn [length upairs].
      exists (map (pair d) u ++ X), W. split; [|split; [|split; [|split; [|split; [|split]]]]].
      * rewrite !map_app, H1, Hv. rewrite E1, E2.
        generalize (map flow2 (map (pair d) (mu t))) as a. generalize (map flow2 (map (pair d) u)) as b. generalize (map flow2 (upairs (mu t))) as c0. generalize (map flow2 X) as x. generalize (map flow2 W) as w.
        intros w x c0 b a. rewrite <- !app_assoc. apply Permutation_app_head. apply Permutation_app_swap_app.
      * apply nodup_app; [apply FinFun.Injective_map_NoDup; [intros a b E; congruence|exact Hnu]|exact H2|].
        intros p Hp Hx. apply in_map_iff in Hp. destruct Hp as (j & <- & _). apply H3 in Hx. cbn [fst] in Hx. destruct Hx as [Hx _]. apply filter_In in Hx. tauto.
      * intros p Hp. apply in_app_or in Hp. destruct Hp as [Hp|Hp].
        -- apply in_map_iff in Hp. destruct Hp as (j & <- & Hj). cbn [fst snd]. split; [left; reflexivity|]. apply HY, Hin, Hj.
        -- apply H3 in Hp. destruct Hp as [Hp1 Hp2]. apply HY in Hp2. split; [right|]; tauto.
      * rewrite app_length, map_length, H4, Lu. lia.
      * exact H5.
      * intros p Hp. apply H6 in Hp. destruct Hp as (Ha & Hb & Hn). apply HY in Ha. apply HY in Hb. tauto.
      * exact H7.
Qed.
End Cells.

Definition pair_dec : forall p q : nat * nat, {p = q} + {p <> q}.
Proof. decide equality; apply Nat.eq_dec. Defined.
Lemma perm_sub_pairs (a l : list (nat * nat)) : NoDup a -> NoDup l -> incl a l -> exists r, Permutation l (a ++ r).
Proof.
  intros Ha Hl Hi. exists (filter (fun x => if in_dec pair_dec x a then false else true) l).
  apply NoDup_Permutation; [exact Hl| |].
  - apply nodup_app; [exact Ha|apply NoDup_filter; exact Hl|]. intros x Hx Hf. apply filter_In in Hf. destruct Hf as [_ Hf]. destruct (in_dec pair_dec x a); [discriminate|contradiction].
  - intros x. rewrite in_app_iff, filter_In. split.
    + intros H. destruct (in_dec pair_dec x a); [left; assumption|right; auto].
    + intros [H|[H _]]; [apply Hi; exact H|exact H].
Qed.
Lemma nodup_prod {A B} (a : list A) (b : list B) : NoDup a -> NoDup b -> NoDup (list_prod a b).
Proof.
  intros Ha Hb. induction Ha as [|x a Hx Ha IH]; cbn [list_prod]; [constructor|]. apply nodup_app; [apply FinFun.Injective_map_NoDup; [intros u v E; congruence|exact Hb]|exact IH|].
  intros p Hp Hq. apply in_map_iff in Hp. destruct Hp as (y & <- & _). apply in_prod_iff in Hq. tauto.
Qed.
Lemma upairs_ordered : forall l, StronglySorted lt l -> NoDup (upairs l) /\ forall i j, In i l -> In j l -> (i < j)%nat -> In (i, j) (upairs l).
Proof.
  intros l H. induction H as [|x l H [IH1 IH2] HF]; cbn [upairs]; [split; [constructor|intros i j []]|]. rewrite Forall_forall in HF.
  assert (NoDup l) as Hnd. { clear - H. induction H as [|x l H IH HF]; constructor; [|exact IH]. rewrite Forall_forall in HF. intros Hx. specialize (HF x Hx). lia. }
  split.
  - apply nodup_app; [apply FinFun.Injective_map_NoDup; [intros a b E; congruence|exact Hnd]|exact IH1|].
    intros p Hp Hq. apply in_map_iff in Hp. destruct Hp as (y & <- & _). apply upairs_in in Hq. destruct Hq as [Hq _]. specialize (HF x Hq). lia.
  - intros i j [->|Hi] [->|Hj] Hij; [lia| |specialize (HF i Hi); lia|].
    + apply in_or_app. left. apply in_map. exact Hj.
    + apply in_or_app. right. auto.
Qed.
Lemma seq_sorted n a : StronglySorted lt (seq a n).
Proof. revert a. induction n as [|n IH]; intros a; cbn [seq]; constructor; [apply IH|]. apply Forall_forall. intros x Hx. apply in_seq in Hx. lia. Qed.

(** *** Picking along a sorted list *)

(** Elements of class 0 are all taken, of class 1 and 2 as many as the caps say, others none. *)
Fixpoint picked {A} (cls : A -> nat) (a b : nat) (l : list A) : list A :=
  match l with
  | [] => []
  | x :: t =>
      match cls x, a, b with
      | O, _, _ => x :: picked cls a b t
      | S O, S a', _ => x :: picked cls a' b t
      | S (S O), _, S b' => x :: picked cls a b' t
      | _, _, _ => picked cls a b t
      end
  end.
Definition of_class {A} (cls : A -> nat) (c : nat) (l : list A) : list A := filter (fun x => Nat.eqb (cls x) c) l.
Lemma picked_perm {A} (cls : A -> nat) : forall l a b, Permutation (picked cls a b l) (of_class cls 0 l ++ firstn a (of_class cls 1 l) ++ firstn b (of_class cls 2 l)).
Proof.
  unfold of_class. induction l as [|x l IH]; intros a b; cbn [picked filter]; [rewrite !firstn_nil; reflexivity|].
  destruct (cls x) as [|[|[|c]]]; cbn [Nat.eqb].
  - cbn [app]. constructor. apply IH.
  - destruct a as [|a]; [rewrite IH; reflexivity|]. cbn [firstn]. rewrite IH. apply Permutation_middle.
  - destruct b as [|b]; [rewrite IH; reflexivity|]. cbn [firstn]. rewrite IH, !app_assoc. apply Permutation_middle.
  - apply IH.
Qed.
Lemma picked_incl {A} (cls : A -> nat) : forall l a b x, In x (picked cls a b l) -> In x l.
Proof.
  induction l as [|y l IH]; intros a b x; cbn [picked]; [tauto|]. destruct (cls y) as [|[|[|c]]], a, b; cbn [In]; intros H; try (destruct H as [H|H]; [left; exact H|]); right; eapply IH; eassumption.
Qed.
Lemma picked_sorted {A} (R : A -> A -> Prop) (cls : A -> nat) : forall l a b, StronglySorted R l -> StronglySorted R (picked cls a b l).
Proof.
  induction l as [|x l IH]; intros a b H; cbn [picked]; [constructor|]. inversion H as [|? ? H1 H2]; subst.
  assert (forall a b, StronglySorted R (x :: picked cls a b l)) as Hc.
  { intros a' b'. constructor; [apply IH; exact H1|]. rewrite Forall_forall in *. intros y Hy. apply H2. apply (picked_incl cls l a' b' y Hy). }
  destruct (cls x) as [|[|[|c]]], a, b; auto.
Qed.
Definition quota {A} (cls : A -> nat) (a b : nat) (l : list A) : nat := (length (of_class cls 0 l) + a + b)%nat.
Lemma picked_length {A} (cls : A -> nat) a b (l : list A) : (a <= length (of_class cls 1 l))%nat -> (b <= length (of_class cls 2 l))%nat -> length (picked cls a b l) = quota cls a b l.
Proof. intros Ha Hb. rewrite (Permutation_length (picked_perm cls l a b)), !app_length, !firstn_length_le by assumption. unfold quota. lia. Qed.

(** Sorting by a key keeps the keys of a class sorted. *)
Lemma keys_sorted {A} (key : A -> Z) (f : A -> bool) (l : list A) : StronglySorted (fun x y => key x <= key y) l -> StronglySorted Z.le (map key (filter f l)).
Proof. intros H. apply (sorted_map (fun x y => key x <= key y)); [auto|]. apply sorted_filter. exact H. Qed.
