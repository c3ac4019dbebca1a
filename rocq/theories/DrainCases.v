(** Concrete compilations for the statements of PropDrain.v. Nothing here models code of /repo. *)
From Verif Require Import Spec Dd DdSpec FlagsFacts MddAll ParSpec MddBarrier MddBarrierSpec Table TableFacts MddCases ParCases BarCases MddBarrierCases.
Open Scope Z_scope.

(** Three variables. With width 2, the states 2 and 3 of the third layer are merged into 9, but the best path, worth 13, goes
    through the state 1 at every layer and through no merged state: the relaxed diagram is exact. *)
Definition tabX : table := mk_table 3 0 0
  [mk_row 0 0 0 1 5; mk_row 0 0 1 2 0; mk_row 0 9 0 9 5; mk_row 0 9 1 9 5;
   mk_row 1 1 0 1 5; mk_row 1 2 0 2 1; mk_row 1 2 1 3 0; mk_row 1 9 0 9 5; mk_row 1 9 1 9 1;
   mk_row 2 1 0 1 3; mk_row 2 2 0 2 2; mk_row 2 3 0 2 6; mk_row 2 9 0 2 6] 9 [] 100.
Lemma tabX_ok : well_behaved tstate ts_eqb (t_problem tabX) (t_relax tabX) t_at t_nv 1000.
Proof. apply table_well_behaved. vm_compute. reflexivity. Qed.
Lemma tabX_call ct w lb : (1 <= w)%nat -> good_call tstate (t_problem tabX) (t_relax tabX) t_nv true orc_fwd (t_call tabX ct w lb (t_root tabX)).
Proof. intros Hw. apply t_call_good; [apply orc_fwd_ok|exact Hw|apply t_root_genuine|]. intros _. vm_compute. split; discriminate. Qed.

Definition qX1 : subproblem tstate := mk_sub (1%nat, 1) 5 [dA 0 0] 13.
Definition qX2 : subproblem tstate := mk_sub (1%nat, 2) 0 [dA 0 1] 7.
(** The best value, whether the diagram is exact, and what is drained. *)
Definition drained (o : option (dd tstate)) :=
  match o with Some d => Some (best_value d, g_exact d, option_map fst (drain_cutset d)) | None => None end.
Lemma tabX_all ct : drained (t_compile true orc_fwd (t_call tabX Relaxed 2 0 (t_root tabX)) ct) = Some (Some (Some 13), true, Some []).
Proof. destruct ct; vm_compute; reflexivity. Qed.
Lemma tabX_bar : exists dF T', returns ts_eqb true (b_compile (t_call tabX Relaxed 2 0 (t_root tabX)) LastExactLayer) none4 dF T' /\
  best_value dF = Some (Some 13) /\ g_exact dF = true /\ option_map fst (drain_cutset dF) = Some [qX2; qX1].
Proof.
  destruct (seen (among idle 0 (b_compile (t_call tabX Relaxed 2 0 (t_root tabX)) LastExactLayer) none4)) as [[[[[v l] e] L] T]|] eqn:E; [|exfalso; revert E; vm_compute; discriminate].
  destruct (seen_returns true idle _ _ _ idle_ok E) as (dF & T' & H & Hv). exists dF, T'. split; [exact H|]. injection Hv as -> _ -> -> _.
  assert (X : (v, e, L) = (Some (Some 13), true, Some [qX2; qX1])).
  { transitivity (match seen (among idle 0 (b_compile (t_call tabX Relaxed 2 0 (t_root tabX)) LastExactLayer) none4) with Some (v, _, e, L, _) => (v, e, L) | None => (None, false, None) end);
      [rewrite E; reflexivity|]. vm_compute. reflexivity. }
  injection X as -> -> ->. auto.
Qed.
(** With the other cutset. *)
Lemma tabX_bar_frontier : exists dF T', returns ts_eqb true (b_compile (t_call tabX Relaxed 2 0 (t_root tabX)) Frontier) none4 dF T' /\
  best_value dF = Some (Some 13) /\ g_exact dF = true /\ option_map fst (drain_cutset dF) = Some [qX2].
Proof.
  destruct (seen (among idle 0 (b_compile (t_call tabX Relaxed 2 0 (t_root tabX)) Frontier) none4)) as [[[[[v l] e] L] T]|] eqn:E; [|exfalso; revert E; vm_compute; discriminate].
  destruct (seen_returns true idle _ _ _ idle_ok E) as (dF & T' & H & Hv). exists dF, T'. split; [exact H|]. injection Hv as -> _ -> -> _.
  assert (X : (v, e, L) = (Some (Some 13), true, Some [qX2])).
  { transitivity (match seen (among idle 0 (b_compile (t_call tabX Relaxed 2 0 (t_root tabX)) Frontier) none4) with Some (v, _, e, L, _) => (v, e, L) | None => (None, false, None) end);
      [rewrite E; reflexivity|]. vm_compute. reflexivity. }
  injection X as -> -> ->. auto.
Qed.
