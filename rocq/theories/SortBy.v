(** A library that keeps its promises: hash maps are gone through in order of insertion, or in reverse, and sorting is by
    insertion. Used for concrete cases, and to show that such a library exists. Nothing here models code of /repo. *)
From Verif Require Import Spec Dd DdSpec.
From Coq Require Import Sorting.Sorted.
Open Scope Z_scope.

Fixpoint ins_by (cmp : nat -> nat -> comparison) (x : nat) (l : list nat) : list nat :=
  match l with
  | [] => [x]
  | y :: t => match cmp x y with Gt => y :: ins_by cmp x t | _ => x :: y :: t end
  end.
Definition sort_by (cmp : nat -> nat -> comparison) (l : list nat) : list nat := fold_right (ins_by cmp) [] l.
Definition orc_fwd {S} : oracle S := mk_orc (fun _ l => l) sort_by.
Definition orc_rev {S} : oracle S := mk_orc (fun _ l => rev l) sort_by.

Lemma ins_by_perm cmp x l : Permutation (x :: l) (ins_by cmp x l).
Proof.
  induction l as [|y l IH]; cbn; [reflexivity|]. destruct (cmp x y); try reflexivity.
  rewrite perm_swap. apply perm_skip. exact IH.
Qed.
Lemma sort_by_perm cmp l : Permutation l (sort_by cmp l).
Proof. induction l as [|x l IH]; cbn; [reflexivity|]. rewrite IH at 1. apply ins_by_perm. Qed.

Lemma ins_by_sorted cmp x l : total_preorder cmp -> StronglySorted (fun a b => cmp a b <> Gt) l -> StronglySorted (fun a b => cmp a b <> Gt) (ins_by cmp x l).
Proof.
  intros [Ho Ht]. induction l as [|y l IH]; intros H; cbn [ins_by]; [repeat constructor|]. inversion H as [|? ? H1 H2]; subst.
  assert (Hle : cmp x y <> Gt -> StronglySorted (fun a b => cmp a b <> Gt) (x :: y :: l)).
  { intros Hxy. constructor; [exact H|]. constructor; [exact Hxy|]. rewrite Forall_forall in *. intros z Hz. apply (Ht x y z); auto. }
  destruct (cmp x y) eqn:E; [apply Hle; congruence|apply Hle; congruence|]. constructor; [auto|].
  apply Forall_forall. intros z Hz. apply (Permutation_in _ (Permutation_sym (ins_by_perm cmp x l))) in Hz. destruct Hz as [<-|Hz].
  - rewrite Ho, E. discriminate.
  - rewrite Forall_forall in H2. auto.
Qed.
Lemma sort_by_sorted cmp l : total_preorder cmp -> StronglySorted (fun a b => cmp a b <> Gt) (sort_by cmp l).
Proof. intros Ht. induction l as [|x l IH]; cbn; [constructor|]. apply ins_by_sorted; assumption. Qed.

Lemma orc_fwd_ok S : library_ok S orc_fwd.
Proof. split; [intros i l; reflexivity|]. split; [intros c l; apply sort_by_perm|intros c l; apply sort_by_sorted]. Qed.
Lemma orc_rev_ok S : library_ok S orc_rev.
Proof. split; [intros i l; apply Permutation_rev|]. split; [intros c l; apply sort_by_perm|intros c l; apply sort_by_sorted]. Qed.
