(** Tables whose full assignments all lead to the same state. Nothing here models code of /repo. *)
From Verif Require Import Spec Dd DdSpec MddAll FrontierSpec NoDupFacts FrontierFacts FringeSpec FringeFacts ParSpec Table TableFacts MddCases ParCases.
Open Scope Z_scope.

(** As [t_at], but the last layer holds one state, which also stands for merged states. *)
Definition t_at1 (t : table) (k : nat) (s : tstate) : Prop := fst s = k /\ (k = t_n t -> snd s = t_top t).
Definition one_end_ok (t : table) : bool :=
  (0 <? t_n t)%nat && forallb (fun r => negb (Nat.eqb (S (r_depth r)) (t_n t)) || Z.eqb (r_to r) (t_top t)) (t_rows t).

Section End.
Variable t : table.
Variable C : Z.
Hypothesis Hok : table_ok t C = true.
Hypothesis H1 : one_end_ok t = true.
Notation P := (t_problem t).

Lemma at1_at k s : t_at1 t k s -> t_at k s.
Proof. intros [H _]. exact H. Qed.
Lemma at1_all k l : Forall (t_at1 t k) l -> Forall (t_at k) l.
Proof. apply Forall_impl. intros s. apply at1_at. Qed.

Lemma end_well_behaved : well_behaved tstate ts_eqb P (t_relax t) (t_at1 t) t_nv C.
Proof.
  destruct (table_well_behaved t C Hok) as [[W1 [W2 W3 W4 W5 W6] W7 W8] W9 W10].
  unfold one_end_ok in H1. apply andb_true_iff in H1 as [Hn Hrows]. apply Nat.ltb_lt in Hn. rewrite forallb_forall in Hrows.
  constructor; [constructor| |].
  - exact W1.
  - constructor.
    + split; [reflexivity|]. intros H. lia.
    + exact W3.
    + intros k l Hl HF. apply (W4 k l Hl (at1_all k l HF)).
    + intros l Hl HF. apply (W5 l Hl (at1_all _ l HF)).
    + intros k s d Hk Hs Hd. split; [exact (W6 k s d Hk (at1_at _ _ Hs) Hd)|]. intros Hlast.
      destruct (domain_row t _ _ _ Hd) as (r & Hr & Er & Hdep & _). cbn [pb_trans t_problem snd]. rewrite Er. specialize (Hrows r Hr).
      apply orb_true_iff in Hrows as [H|H]; [|apply Z.eqb_eq; exact H]. apply negb_true_iff, Nat.eqb_neq in H. destruct Hs as [Hs _]. cbn in *. lia.
  - intros k l Hk Hl HF. split; [exact (W7 k l Hk Hl (at1_all _ _ HF))|]. intros _. destruct l; [congruence|reflexivity].
  - destruct W8 as [B1 B2 B3 B4 B5]. constructor; auto.
    + intros k s d Hk Hs. apply B4; [exact Hk|apply at1_at; exact Hs].
    + intros k l src d Hk Hs Hd HF. apply (B5 k); [exact Hk|apply at1_at; exact Hs|exact Hd|exact (at1_all _ _ HF)].
  - intros k s ds c Hk Hs. apply (W9 k s ds c Hk (at1_at _ _ Hs)).
  - intros k l src d ds c Hk Hs Hd HF. apply (W10 k l src d ds c Hk (at1_at _ _ Hs) Hd (at1_all _ _ HF)).
Qed.
Lemma end_solver w ct : (1 <= w)%nat -> good_solver tstate ts_eqb (t_cfg t w ct) (t_at1 t) t_nv C.
Proof.
  intros Hw. exists (NoDupFacts.Inv tstate t_rank), (nd_list tstate). constructor.
  - apply end_well_behaved.
  - intros s. exact Hw.
  - apply nodup_frontier_ok; [apply ts_eqb_spec|apply t_rank_preorder].
Qed.
Lemma end_one w ct : one_end tstate (t_cfg t w ct) (t_at1 t).
Proof. intros [k x] [k' x'] [Ha Hb] [Ha' Hb']. cbn in *. rewrite (Hb eq_refl), (Hb' eq_refl). congruence. Qed.
End End.

(** [tabF] with one final state instead of two. *)
Definition tabG : table := mk_table 3 0 0
  [mk_row 0 0 0 1 0; mk_row 0 0 1 2 1; mk_row 0 0 2 3 1;
   mk_row 1 1 0 1 5; mk_row 1 2 0 2 0; mk_row 1 3 0 3 0;
   mk_row 2 1 0 9 3; mk_row 2 2 0 9 6; mk_row 2 3 0 9 5;
   mk_row 0 9 0 9 10; mk_row 1 9 0 9 10; mk_row 2 9 0 9 9] 9 [] 100.
Lemma tabG_ok : table_ok tabG 1000 = true. Proof. vm_compute. reflexivity. Qed.
Lemma tabG_end : one_end_ok tabG = true. Proof. vm_compute. reflexivity. Qed.
Lemma tabG_opt : optimum tstate (t_problem tabG) t_nv 8.
Proof. apply (table_optimum tabG 8). vm_compute. reflexivity. Qed.
Definition cfgG ct := t_cfg tabG 2 ct.
Definition solG8 := [mk_dec 1 0; mk_dec 0 0; mk_dec 2 0].
Lemma end_run : look (run_from (cfgG Frontier) 1 1 (go 25 0)) = Some (mk_view true false 8 8 (Some 8) (Some solG8)).
Proof. vm_compute. reflexivity. Qed.
